(** Reading ID3v2.3 frames that were translated. *)
From Verif Require Import BaseLemmas StrLemmas SynchProof TextProof TimestampSpec TimestampProof TimestampThm Id3v1Model FrameProof1.
From Verif Require Export FrameReadModel FrameProof2 Frame23Spec.
From Coq Require Import Permutation.

(** *** People: keys and values in one text *)
Definition seg (be : bool) (e : encoding) (s : str) : bytes :=
  match e with UTF16 => flat_map (u16_bytes be) (utf16_units s) | _ => s end.
Lemma utf16_units_app : forall a b, utf16_units (a ++ b) = utf16_units a ++ utf16_units b.
Proof. induction a; intros; cbn [utf16_units app]; auto. rewrite IHa. now rewrite app_assoc. Qed.
Lemma seg_app : forall be e a b, seg be e (a ++ b) = seg be e a ++ seg be e b.
Proof. intros. destruct e; cbn [seg]; auto. rewrite utf16_units_app, flat_map_app. reflexivity. Qed.
Lemma seg_nul : forall be e, e = Latin1 \/ e = UTF16 -> seg be e [0] = terminator e.
Proof. intros be e [-> | ->]; destruct be; reflexivity. Qed.
Definition bo_of (be : bool) (e : encoding) : N * N := match e with UTF16 => bom_bytes be | _ => (0, 0) end.
Lemma seg_nil : forall be e s, e = Latin1 \/ e = UTF16 -> seg be e s = [] -> s = [].
Proof.
  intros be e s [-> | ->] H; auto. cbn [seg] in H. apply flat_map_u16_nil in H. destruct s; auto. cbn [utf16_units] in H.
  unfold utf16_char in H. destruct (n <? 65536); discriminate.
Qed.
Lemma decode_seg : forall be e s, e = Latin1 \/ e = UTF16 -> terminated_ok e s -> seg be e s <> [] ->
  exists b, decode_raw e (bo_of be e) (seg be e s) = Ok (s, b).
Proof.
  intros be e s He (S & Hz & R) NE. destruct He as [-> | ->]; cbn [decode_raw seg bo_of] in *.
  - unfold latin1_decode. rewrite trim_id by auto. eauto.
  - rewrite lenN_flat_u16. assert (L : 1 <= lenN (utf16_units s)) by (destruct (utf16_units s); [exfalso; apply NE; reflexivity|rewrite lenN_cons; lia]).
    destruct (N.ltb_spec (2 * lenN (utf16_units s)) 2); [lia|]. replace ((2 * lenN (utf16_units s)) mod 2) with 0 by lia.
    change (negb (0 =? 0)) with false. cbv iota. destruct (bom_case be) as (-> & B & C). cbn [bind]. rewrite B.
    assert (D : utf16_decode_bytes (flat_map (u16_bytes be) (utf16_units s)) be = Ok s).
    { rewrite utf16_decode_bytes_enc with (s := s); auto. now rewrite trim_id. now apply utf16_units_bound.
      apply filter_all. eapply Forall_impl; [|now apply (utf16_units_nobom s S)]. unfold not_bom; cbv beta; intros; lia. }
    destruct be. rewrite D. cbn [bind]. eauto. rewrite C by auto. rewrite D. cbn [bind]. eauto.
Qed.
Lemma term_seg : forall be e s rest, e = Latin1 \/ e = UTF16 -> terminated_ok e s ->
  exists n b, decode_text e true (bo_of be e) (seg be e s ++ terminator e ++ rest) = Ok (mkDec s n b, rest) /\ 0 < n.
Proof.
  intros be e s rest He T. pose proof T as (S & Hz & R). unfold decode_text.
  assert (X : read_to_terminator (seg be e s ++ terminator e ++ rest) e = (seg be e s, lenN (terminator e), rest)).
  { destruct He as [-> | ->]; cbn [read_to_terminator seg terminator app].
    - now rewrite read_to_nul_app.
    - rewrite read_to_nul16_app; auto. now apply utf16_units_bound. now apply utf16_units_nonzero. }
  rewrite X. destruct (seg be e s) as [|x r] eqn:E.
  - apply seg_nil in E; auto. subst s. eexists _, _. split; [reflexivity|]. destruct He as [-> | ->]; reflexivity.
  - destruct (decode_seg be e s He T) as (b & D); [congruence|]. rewrite <- E, D. cbn [bind]. eexists _, _. split; [reflexivity|].
    rewrite E, lenN_cons. lia.
Qed.
Lemma end_seg : forall be e s, e = Latin1 \/ e = UTF16 -> terminated_ok e s ->
  exists n b, decode_text e true (bo_of be e) (seg be e s) = Ok (mkDec s n b, []) /\ (s <> [] -> 0 < n).
Proof.
  intros be e s He T. pose proof T as (S & Hz & R). unfold decode_text.
  assert (X : read_to_terminator (seg be e s) e = (seg be e s, 0, [])).
  { destruct He as [-> | ->]; cbn [read_to_terminator seg].
    - now rewrite read_unterm.
    - rewrite read_unterm16; auto. now apply utf16_units_bound. now apply utf16_units_nonzero. }
  rewrite X. destruct (seg be e s) as [|x r] eqn:E.
  - apply seg_nil in E; auto. subst s. eexists _, _. split; [reflexivity|]. congruence.
  - destruct (decode_seg be e s He T) as (b & D); [congruence|]. rewrite <- E, D. cbn [bind]. eexists _, _. split; [reflexivity|].
    rewrite E, lenN_cons. lia.
Qed.
Definition pair_text (p : str * str) : str := fst p ++ 0 :: snd p.
Fixpoint pairs_text (l : list (str * str)) : str :=
  match l with [] => [] | [p] => pair_text p | p :: l' => pair_text p ++ 0 :: pairs_text l' end.
Lemma add_pairs_app : forall a b v, add_pairs v (a ++ b) = add_pairs (add_pairs v a) b.
Proof. intros. unfold add_pairs. apply fold_left_app. Qed.
Lemma add_pairs_some : forall l v, v <> [] -> add_pairs v l = v ++ match l with [] => [] | _ => 0 :: pairs_text l end.
Proof.
  induction l as [|p l IH]; intros v NE. now rewrite app_nil_r. unfold add_pairs. cbn [fold_left]. fold (add_pairs (v ++ (if empty v then [] else [0]) ++ fst p ++ 0 :: snd p) l).
  rewrite IH by (destruct v; [congruence|discriminate]). destruct v as [|x v]; [congruence|]. cbn [empty]. rewrite <- !app_assoc. cbn [app]. f_equal. f_equal. f_equal.
  destruct l; cbn [pairs_text]; unfold pair_text. now rewrite app_nil_r. rewrite <- !app_assoc. reflexivity.
Qed.
Lemma add_pairs_text : forall l, add_pairs [] l = pairs_text l.
Proof.
  destruct l as [|p l]; auto. unfold add_pairs. cbn [fold_left empty app]. fold (add_pairs (fst p ++ 0 :: snd p) l).
  rewrite add_pairs_some by (destruct (fst p); discriminate). destruct l; cbn [pairs_text]; auto. now rewrite app_nil_r.
Qed.
Lemma pairs_loop : forall be e l, e = Latin1 \/ e = UTF16 ->
  Forall (fun p => terminated_ok e (fst p) /\ terminated_ok e (snd p)) l -> l <> [] -> snd (last l ([], [])) <> [] ->
  forall fuel acc, (length l < fuel)%nat -> kv_loop fuel e (bo_of be e) acc (seg be e (pairs_text l)) = Ok (acc ++ l, []).
Proof.
  intros be e l He. induction l as [|[k x] l IH]; intros F NE La fuel acc Hf. congruence.
  apply Forall_cons_iff in F as [[Fk Fx] F]. cbn [fst snd] in *. destruct fuel as [|fuel]; [cbn in Hf; lia|]. cbn [length] in Hf.
  cbn [kv_loop].
  destruct l as [|q l].
  - cbn [pairs_text]. unfold pair_text. cbn [fst snd]. change (k ++ 0 :: x) with (k ++ [0] ++ x). rewrite !seg_app, seg_nul by auto.
    destruct (term_seg be e k (seg be e x) He Fk) as (n & b & -> & P). cbn [as_ferr bind].
    destruct (end_seg be e x He Fx) as (n2 & b2 & -> & P2). cbn [as_ferr bind d_read d_content]. cbn [last snd] in La.
    specialize (P2 La). replace ((n =? 0) || (n2 =? 0)) with false by lia.
    destruct fuel; [cbn in Hf; lia|]. cbn [kv_loop].
    assert (Z : decode_text e true (bo_of be e) [] = Ok (mkDec [] 0 (0, 0), [])) by (destruct He as [-> | ->]; reflexivity).
    rewrite Z. cbn [as_ferr bind]. rewrite Z. reflexivity.
  - replace (pairs_text ((k, x) :: q :: l)) with (k ++ [0] ++ x ++ [0] ++ pairs_text (q :: l)).
    2: { unfold pairs_text at 2. fold pairs_text. unfold pair_text. cbn [fst snd]. rewrite <- app_assoc. reflexivity. }
    rewrite !seg_app, !seg_nul by auto.
    destruct (term_seg be e k (seg be e x ++ terminator e ++ seg be e (pairs_text (q :: l))) He Fk) as (n & b & -> & P). cbn [as_ferr bind].
    destruct (term_seg be e x (seg be e (pairs_text (q :: l))) He Fx) as (n2 & b2 & -> & P2). cbn [as_ferr bind d_read d_content].
    replace ((n =? 0) || (n2 =? 0)) with false by lia.
    rewrite IH; auto. now rewrite <- app_assoc. discriminate. cbn [length] in *. lia.
Qed.
Lemma terminated_str : forall e l, Forall (fun p => terminated_ok e (fst p) /\ terminated_ok e (snd p)) l ->
  str_ok (pairs_text l) /\ (e = Latin1 -> Forall (fun c => c <= 255) (pairs_text l)).
Proof.
  assert (Z : scalar 0) by (apply scalar_bound; lia).
  assert (A : forall e p, terminated_ok e (fst p) /\ terminated_ok e (snd p) ->
              str_ok (pair_text p) /\ (e = Latin1 -> Forall (fun c => c <= 255) (pair_text p))).
  { intros e [k x] [K X]. cbn [fst snd] in *. unfold pair_text. cbn [fst snd]. pose proof K as (K1 & _). pose proof X as (X1 & _). split.
    - apply Forall_app. split; [auto|constructor; auto].
    - intros E. apply Forall_app. split; [now apply (term_latin e)|constructor; [lia|now apply (term_latin e)]]. }
  induction l as [|p l IH]; intros F. split; constructor. apply Forall_cons_iff in F as [Fp F]. destruct (A e p Fp) as (P1 & P2). destruct (IH F) as (Q1 & Q2).
  destruct l; cbn [pairs_text]; auto. split.
  - apply Forall_app. split; [auto|constructor; auto].
  - intros E. apply Forall_app. split; [auto|constructor; [lia|auto]].
Qed.
Lemma pairs_text_read : forall w e h l, w_v23 w = true -> people_ok (Some (e, l)) ->
  exists b, text_bytes w e (pairs_text l) = Ok b /\ b <> [] /\ parse_key_value h V3 b = Ok (Some (FKeyValue h (stored true e) l), []).
Proof.
  intros w e h l V (NE & La & F). unfold text_bytes. rewrite w_enc_stored, V. set (e' := stored true e) in *.
  assert (He : e' = Latin1 \/ e' = UTF16) by (subst e'; destruct e; cbn; auto).
  destruct (terminated_str e' l F) as (S & L).
  assert (E : enc_text w e' (pairs_text l) false = Ok (match e' with UTF16 => flat_map (u16_bytes (w_ne w)) [0xFEFF] | _ => [] end ++ seg (w_ne w) e' (pairs_text l))).
  { unfold enc_text. rewrite encode_lossy by auto. destruct He as [H|H]; rewrite H in *; cbn [encode seg].
    - unfold latin1_encode. rewrite latin1_ok by auto. cbn [bind as_ferr app]. now rewrite ?app_nil_r.
    - unfold utf16_encode. cbn [as_ferr]. rewrite ?app_nil_r. destruct (w_ne w); reflexivity. }
  rewrite E. cbn [bind]. eexists. split; [reflexivity|]. split; [discriminate|].
  unfold parse_key_value. cbn [read_u8 from_opt bind]. rewrite verify_enc by discriminate. cbn [bind].
  destruct l as [|[k x] l]; [congruence|]. apply Forall_cons_iff in F as [[Fk Fx] F]. cbn [fst snd] in *.
  assert (exists tail, pairs_text ((k, x) :: l) = k ++ [0] ++ tail /\
     (l = [] /\ tail = x \/ l <> [] /\ tail = x ++ [0] ++ pairs_text l)) as (tail & -> & T).
  { destruct l as [|q l]; cbn [pairs_text]; unfold pair_text at 1; cbn [fst snd].
    exists x. auto. exists (x ++ [0] ++ pairs_text (q :: l)). split. rewrite <- app_assoc. reflexivity. right. split; [discriminate|auto]. }
  rewrite !seg_app, seg_nul by auto.
  assert (K : exists n bom, dec_term e' (match e' with UTF16 => flat_map (u16_bytes (w_ne w)) [0xFEFF] | _ => [] end ++ seg (w_ne w) e' k ++ terminator e' ++ seg (w_ne w) e' tail)
            = Ok (mkDec k n bom, seg (w_ne w) e' tail) /\ 0 < n /\ match e' with UTF16 => bom | _ => (0, 0) end = bo_of (w_ne w) e').
  { destruct He as [H|H]; rewrite H in *; cbn [app].
    - destruct (term_seg (w_ne w) Latin1 k (seg (w_ne w) Latin1 tail) (or_introl eq_refl) Fk) as (n & b & D & P). unfold dec_term. cbn [bo_of] in D. rewrite D. cbn [as_ferr].
      exists n, b. auto.
    - pose proof Fk as (Sk & _).
      assert (B : enc_bytes (w_ne w) UTF16 k (flat_map (u16_bytes (w_ne w)) [0xFEFF] ++ seg (w_ne w) UTF16 k)).
      { exists (utf16_units k). split. now apply units_mapped. rewrite <- flat_map_concat_map. cbn [seg]. rewrite <- flat_map_app. destruct (w_ne w); reflexivity. }
      destruct (dec_term_enc _ _ _ _ (seg (w_ne w) UTF16 tail) Fk B) as (n & bom & D & P & Hb). rewrite <- !app_assoc in D. rewrite D.
      exists n, bom. split; auto. }
  destruct K as (n & bom & D & P & B). rewrite D. cbn [bind d_read d_content d_bom]. rewrite B. destruct (N.eqb_spec n 0); [lia|].
  destruct T as [[-> ->]|[NL ->]].
  - destruct (end_seg (w_ne w) e' x He Fx) as (n2 & b2 & -> & _). cbn [as_ferr bind d_content kv_loop].
    assert (Z : decode_text e' true (bo_of (w_ne w) e') [] = Ok (mkDec [] 0 (0, 0), [])) by (destruct He as [-> | ->]; reflexivity).
    cbn [length]. rewrite Z. cbn [as_ferr bind]. rewrite Z. reflexivity.
  - rewrite !seg_app, seg_nul by auto.
    destruct (term_seg (w_ne w) e' x (seg (w_ne w) e' (pairs_text l)) He Fx) as (n2 & b2 & -> & _). cbn [as_ferr bind d_content].
    rewrite pairs_loop; auto.
    + destruct l; [congruence|exact La].
    + apply le_n_S. clear - He. assert (X : (length (pairs_text l) >= length l)%nat).
      { induction l as [|[k x] l IH]; [cbn; lia|]. destruct l as [|q l].
        - cbn [pairs_text]. unfold pair_text. cbn [fst snd]. rewrite app_length. cbn [length]. lia.
        - change (pairs_text ((k, x) :: q :: l)) with (pair_text (k, x) ++ 0 :: pairs_text (q :: l)). rewrite app_length. cbn [length] in *. lia. }
      transitivity (length (pairs_text l)); [lia|]. destruct He as [-> | ->]; cbn [seg]; [lia|].
      assert (Y : lenN (pairs_text l) <= lenN (utf16_units (pairs_text l))).
      { generalize (pairs_text l). intro s. induction s as [|c s IH]; cbn [utf16_units]. reflexivity. rewrite lenN_app, lenN_cons. unfold utf16_char. destruct (c <? 65536); rewrite ?lenN_cons, ?lenN_nil; lia. }
      pose proof (lenN_flat_u16 (w_ne w) (utf16_units (pairs_text l))). unfold lenN in *. lia.
Qed.

(** *** Dates *)
Lemma two_u8_all : forallb (fun d => let s := pad 2 (N.of_nat d) in (lenN s =? 2) && forallb (fun c => c <? 128) s &&
    match parse_uint U8_MAX s with Some a => a =? N.of_nat d | None => false end) (seq 0 60) = true.
Proof. vm_compute. reflexivity. Qed.
Lemma two_u8_pad : forall d m, d < 60 -> m < 60 -> two_u8 (pad 2 d ++ pad 2 m) = Some (d, m).
Proof.
  assert (A : forall d, d < 60 -> lenN (pad 2 d) = 2 /\ forallb (fun c => c <? 128) (pad 2 d) = true /\ parse_uint U8_MAX (pad 2 d) = Some d).
  { intros d Hd. pose proof two_u8_all as A. rewrite forallb_forall in A. specialize (A (N.to_nat d) (proj2 (in_seq 60 0 (N.to_nat d)) ltac:(lia))). cbv zeta in A. rewrite N2Nat.id in A.
    apply andb_prop in A. destruct A as [A C]. apply andb_prop in A. destruct A as [A B]. split; [lia|]. split; [exact B|]. destruct (parse_uint _ _) as [v|]; [|discriminate]. f_equal. lia. }
  intros d m Hd Hm. destruct (A d Hd) as (L1 & F1 & P1). destruct (A m Hm) as (L2 & F2 & P2). unfold two_u8. rewrite lenN_app, L1, L2, forallb_app, F1, F2.
  replace (takeN 2 (pad 2 d ++ pad 2 m)) with (pad 2 d) by (symmetry; now apply takeN_app). replace (dropN 2 (pad 2 d ++ pad 2 m)) with (pad 2 m) by (symmetry; now apply dropN_app). rewrite P1, P2. reflexivity.
Qed.
Lemma pad_digits : forall n k, Forall (fun c => 48 <= c <= 57) (pad k n).
Proof.
  intros. unfold pad. apply Forall_app. split. apply Forall_forall. intros x I. apply repeat_spec in I. lia.
  destruct (to_dec_spec n) as (D & _). eapply Forall_impl; [|exact D]. unfold is_digit. cbv beta. intros. lia.
Qed.
Lemma year_digits : forall y, 1000 <= y <= 9999 -> length (to_dec y) = 4%nat.
Proof.
  intros y H. destruct (to_dec_spec y) as (F & V & _ & Z). specialize (Z ltac:(lia)).
  assert (B : forall c l, is_digit c = true -> Forall (fun c => is_digit c = true) l -> 48 <= c <= 57) by (unfold is_digit; intros; lia).
  destruct (to_dec y) as [|a [|b [|c [|d [|e l]]]]]; try reflexivity; exfalso; repeat match goal with HF : Forall _ (_ :: _) |- _ => apply Forall_cons_iff in HF; destruct HF end; cbn [hd] in Z;
    repeat match goal with HD : is_digit _ = true |- _ => unfold is_digit in HD end; unfold dec_val in V; cbn [fold_left] in V; try lia.
  pose proof (dec_val_mono l (((((0 * 10 + (a - 48)) * 10 + (b - 48)) * 10 + (c - 48)) * 10 + (d - 48)) * 10 + (e - 48))) as M. unfold dec_val in M. lia.
Qed.
Lemma year_text : forall y, 1000 <= y <= 9999 -> ts_display (mkTs y None None None None None) = to_dec y.
Proof.
  intros y H. pose proof (year_digits y H) as A.
  unfold ts_display. cbn [ts_year ts_month]. unfold pad. rewrite A. cbn [Nat.sub repeat app]. now rewrite ?app_nil_r.
Qed.

(** *** Reading one frame after the other *)
Lemma valid_b : forall s, length s = 4%nat -> forallb (fun c => is_upper c || is_digit c) s = true -> valid_name s.
Proof.
  intros s L H. split; auto. rewrite forallb_forall in H. apply Forall_forall. intros x I. specialize (H x I). unfold is_upper, is_digit in H. lia.
Qed.
Section Reads.
Variable w : wopts.
Variable inflate : bytes -> option bytes.
Variable o : fopts.
Hypothesis cover : fo_cover o = true.
Hypothesis implicit : fo_implicit o = true.
Hypothesis v23 : w_v23 w = true.
Local Notation m := (fo_mode o).
Definition add_all (fs acc : list frame) : list frame := fold_left (fun a f => add_read f a) fs acc.
Definition reads (b : bytes) (fs : list frame) : Prop := forall fuel acc tail, (length b + length tail < fuel)%nat ->
  exists fuel', (length tail < fuel')%nat /\
    read_all inflate fuel V3 false o acc (b ++ tail) = read_all inflate fuel' V3 false o (add_all fs acc) tail.
Lemma reads_nil : reads [] [].
Proof. intros fuel acc tail H. exists fuel. split; [cbn in H; lia|reflexivity]. Qed.
Lemma reads_app : forall b1 f1 b2 f2, reads b1 f1 -> reads b2 f2 -> reads (b1 ++ b2) (f1 ++ f2).
Proof.
  intros b1 f1 b2 f2 R1 R2 fuel acc tail H. rewrite app_length in H. rewrite <- app_assoc.
  destruct (R1 fuel acc (b2 ++ tail)) as (k & K & ->). rewrite app_length. lia. rewrite app_length in K.
  destruct (R2 k (add_all f1 acc) tail K) as (j & J & ->). exists j. split; auto. unfold add_all. now rewrite fold_left_app.
Qed.
Lemma wv3 : wv w = V3. Proof. unfold wv. now rewrite v23. Qed.
Lemma reads_emit : forall s fl value b f', valid_name s -> flags_ok fl -> emit w s fl value = Ok b -> value <> [] -> lenN value < 2 ^ 32 ->
  (forall fuel, (length value <= fuel)%nat ->
     parse_content (read_all inflate fuel V3 false o []) (Valid (up_name w (fo_implicit o) s)) fl V3 m value = Ok (Some f', [])) -> reads b [f'].
Proof.
  intros s fl value b f' Hs Hf E NE L P fuel acc tail H.
  destruct fuel as [|fuel]; [lia|].
  assert (Lv : (length value <= length b)%nat) by (pose proof (emit_len _ _ _ _ _ E); unfold lenN in *; lia).
  destruct (emit_up w inflate (read_all inflate fuel V3 false o []) o s fl value b f' tail Hs Hf (or_introl cover) E NE L) as (R & Lb & _).
  { rewrite wv3. apply P. lia. }
  exists fuel. split. unfold lenN in Lb. lia. cbn [read_all]. rewrite wv3 in R. rewrite R. reflexivity.
Qed.
Lemma up3 : forall s, up_name w (fo_implicit o) s = upgraded (upgrade_v3 s) s.
Proof. intros. unfold up_name. now rewrite v23, implicit. Qed.

(** A frame whose content is a leaf, written under a name and read under the name this is translated to. *)
Lemma reads_leaf : forall f s b f',
  (let? v := leaf_bytes w f in emit_frame w f v) = Ok b -> lenN b < 2 ^ 32 -> f_id f = Valid s -> valid_name s -> flags_ok (f_flags f) ->
  (forall v kids, leaf_bytes w f = Ok v -> v <> [] /\
     parse_content kids (Valid (upgraded (upgrade_v3 s) s)) (f_flags f) V3 m v = Ok (Some f', [])) -> reads b [f'].
Proof.
  intros f s b f' E L Hi Hs Hf P. destruct (leaf_bytes w f) as [v| |] eqn:Ev; try discriminate E. cbn [bind] in E.
  unfold emit_frame, f_name in E. rewrite Hi in E. cbn [id_str] in E. pose proof (emit_len _ _ _ _ _ E).
  destruct (P v (fun _ => Panic) eq_refl) as (NE & _).
  apply (reads_emit s (f_flags f) v); auto. lia. intros fuel _. rewrite up3. apply P. reflexivity.
Qed.
Lemma digits_text : forall e s, s <> [] -> Forall (fun c => 48 <= c <= 57) s -> text_ok e s.
Proof.
  intros e s NE F. assert (A : Forall (fun c => c < 128) s) by (eapply Forall_impl; [|exact F]; cbv beta; intros; lia).
  split. now apply ascii_ok. split.
  - intro X. destruct (exists_last NE) as (a & x & ->). rewrite last_last in X. subst x. apply Forall_app in F as [_ F].
    apply Forall_cons_iff in F as [F _]. lia.
  - destruct e; auto; (eapply Forall_impl; [|exact F]); cbv beta; intros; lia.
Qed.
Lemma enc23_idem : forall e, stored true (to_id3v23 e) = stored true e.
Proof. destruct e; reflexivity. Qed.
(** The parts of a date. *)
Lemma reads_text : forall fl e s v b, valid_name s -> kind_of_name s = KText -> ~ old_name s -> flags_ok fl -> text_ok (stored true e) v ->
  (let? x := leaf_bytes w (FText (mkFH (Valid s) fl) e v) in emit_frame w (FText (mkFH (Valid s) fl) e v) x) = Ok b -> lenN b < 2 ^ 32 ->
  reads b [FText (mkFH (Valid s) fl) (stored true e) v].
Proof.
  intros fl e s v b Hs Hk Ho Hf T E L. apply (reads_leaf (FText (mkFH (Valid s) fl) e v) s); auto. intros x kids Ex.
  split. { apply (leaf_nonempty w true m (FText (mkFH (Valid s) fl) e v) x); auto. }
  rewrite upgrade_none by auto. cbn [upgraded].
  destruct (rt_leaf w V3 kids m (FText (mkFH (Valid s) fl) e v) s) as [X|(b' & X & Y)]; auto; try discriminate.
  cbn [content_ok]. rewrite v23. exact T. congruence. rewrite X in Ex. injection Ex as ->. rewrite v23 in Y. exact Y.
Qed.
Lemma reads_year : forall fl e y b, flags_ok fl -> 1000 <= y <= 9999 ->
  (let? x := leaf_bytes w (text23 fl e ($"TYER") (to_dec y)) in emit_frame w (text23 fl e ($"TYER") (to_dec y)) x) = Ok b -> lenN b < 2 ^ 32 ->
  reads b [FTime (mkFH (Valid ($"TDRC")) fl) (stored true e) (mkTs y None None None None None)].
Proof.
  intros fl e y b Hf Hy E L. eapply (reads_leaf _ ($"TYER")); [exact E|exact L|reflexivity|now apply valid_b|exact Hf|].
  intros x kids Ex. cbn [text23 leaf_bytes] in Ex.
  assert (V : ts_verify (mkTs y None None None None None) = Ok tt).
  { apply C18_verify_exact. unfold in_limits, opt_le. cbn [ts_year ts_month ts_day ts_hour ts_minute ts_second]. repeat split; auto; try lia; cbn; auto. }
  destruct (rt_time w (mkFH (Valid ($"TDRC")) fl) m (to_id3v23 e) _ V) as (b' & B & P).
  assert (x = b') as ->.
  { unfold text_bytes in Ex. unfold time_bytes in B. rewrite V in B. cbn [as_ferr bind] in B. rewrite year_text in B by auto. congruence. }
  split. { unfold text_bytes in Ex. destruct (enc_text _ _ _ _); try discriminate Ex. cbn [bind] in Ex. injection Ex as <-. discriminate. }
  change (upgraded (upgrade_v3 ($"TYER")) ($"TYER")) with ($"TDRC"). rewrite dispatch. cbv zeta.
  change (kind_of_name ($"TDRC")) with KTime. cbv iota. change (f_flags (text23 fl e ($"TYER") (to_dec y))) with fl. rewrite P, v23, enc23_idem. reflexivity.
Qed.
Definition one_bytes (f : frame) : res ferr bytes := let? v := leaf_bytes w f in emit_frame w f v.
Definition piece (f g : frame) : Prop := forall b, one_bytes f = Ok b -> lenN b < 2 ^ 32 -> reads b [g].
Lemma reads_new : forall fs gs, Forall2 piece fs gs -> forall b, new_frames w fs = Ok b -> lenN b < 2 ^ 32 -> reads b gs.
Proof.
  induction 1 as [|f g fs gs P F IH]; intros b E L; cbn [new_frames] in E.
  - injection E as <-. apply reads_nil.
  - unfold piece, one_bytes in P. destruct (leaf_bytes w f) as [v| |]; cbn [bind] in E, P; try discriminate E.
    destruct (emit_frame w f v) as [b1| |]; cbn [bind] in E; try discriminate E.
    destruct (new_frames w fs) as [b2| |]; cbn [bind] in E; try discriminate E. injection E as <-. rewrite lenN_app in L.
    change (g :: gs) with ([g] ++ gs). apply reads_app. apply P; auto. lia. apply IH; auto. lia.
Qed.
Definition date_parts (fl : frame_flags) (e : encoding) (t : timestamp) : list frame :=
  FTime (mkFH (Valid ($"TDRC")) fl) (stored true e) (only_year t)
    :: match ts_month t, ts_day t with Some mo, Some d => [FText (mkFH (Valid ($"TDAT")) fl) (stored true e) (pad 2 d ++ pad 2 mo)] | _, _ => [] end
    ++ match ts_hour t, ts_minute t with Some h, Some mi => [FText (mkFH (Valid ($"TIME")) fl) (stored true e) (pad 2 h ++ pad 2 mi)] | _, _ => [] end.
Lemma pad2_text : forall e a b, text_ok e (pad 2 a ++ pad 2 b).
Proof.
  intros. apply digits_text. 2: apply Forall_app; split; apply pad_digits.
  unfold pad. destruct (to_dec_spec a) as (_ & _ & NE & _). destruct (to_dec a); [congruence|]. destruct (2 - length (n :: l))%nat; discriminate.
Qed.
Lemma date_reads : forall fl e t b, flags_ok fl -> ts_verify t = Ok tt -> 1000 <= ts_year t ->
  new_frames w (split_tdrc fl e t) = Ok b -> lenN b < 2 ^ 32 -> reads b (date_parts fl e t).
Proof.
  intros fl e t b Hf V Hy E L. apply C18_verify_exact in V. destruct V as (Y & _).
  apply (reads_new (split_tdrc fl e t)); auto. unfold split_tdrc, date_parts. constructor.
  - intros b' E' L'. apply reads_year; auto.
  - assert (X : forall s a c, valid_name s -> kind_of_name s = KText -> ~ old_name s ->
              piece (text23 fl e s (pad 2 a ++ pad 2 c)) (FText (mkFH (Valid s) fl) (stored true e) (pad 2 a ++ pad 2 c))).
    { intros s a c Hs Hk Ho b' E' L'. rewrite <- enc23_idem. apply reads_text; auto. rewrite enc23_idem. apply pad2_text. }
    assert (NO : forall s, list_eqb s ($"TORY") = false -> list_eqb s ($"TYER") = false -> list_eqb s ($"IPLS") = false -> ~ old_name s).
    { intros s A B C [-> | [-> | ->]]; discriminate. }
    assert (X1 := fun a c => X ($"TDAT") a c (valid_b ($"TDAT") eq_refl eq_refl) eq_refl (NO ($"TDAT") eq_refl eq_refl eq_refl)).
    assert (X2 := fun a c => X ($"TIME") a c (valid_b ($"TIME") eq_refl eq_refl) eq_refl (NO ($"TIME") eq_refl eq_refl eq_refl)).
    destruct (ts_month t), (ts_day t), (ts_hour t), (ts_minute t); cbn [app]; repeat (constructor; auto).
Qed.
Lemma original_reads : forall fl e t b, flags_ok fl -> ts_verify t = Ok tt ->
  new_frames w [FTime (mkFH (Valid ($"TORY")) fl) e (year_only t)] = Ok b -> lenN b < 2 ^ 32 ->
  reads b [FTime (mkFH (Valid ($"TDOR")) fl) (stored true e) (only_year t)].
Proof.
  intros fl e t b Hf V E L. apply C18_verify_exact in V. destruct V as (Y & _).
  assert (V : ts_verify (year_only t) = Ok tt).
  { apply C18_verify_exact. unfold in_limits, opt_le, year_only. cbn [ts_year ts_month ts_day ts_hour ts_minute ts_second]. repeat split; auto; try lia; cbn; auto. }
  apply (reads_new [FTime (mkFH (Valid ($"TORY")) fl) e (year_only t)]); auto. constructor; [|constructor].
  intros b' E' L'. eapply (reads_leaf _ ($"TORY")); [exact E'|exact L'|reflexivity|now apply valid_b|exact Hf|].
  intros x kids Ex. cbn [leaf_bytes] in Ex.
  destruct (rt_time w (mkFH (Valid ($"TDOR")) fl) m e _ V) as (b2 & B & P). assert (x = b2) as -> by congruence.
  split. { unfold time_bytes in Ex. destruct (ts_verify _); try discriminate Ex. cbn [as_ferr bind] in Ex. destruct (enc_text _ _ _ _); try discriminate Ex. cbn [bind] in Ex. injection Ex as <-. discriminate. }
  change (upgraded (upgrade_v3 ($"TORY")) ($"TORY")) with ($"TDOR"). rewrite dispatch. cbv zeta.
  change (kind_of_name ($"TDOR")) with KTime. cbv iota.
  change (f_flags (FTime (mkFH (Valid ($"TORY")) fl) e (year_only t))) with fl. rewrite P, v23. reflexivity.
Qed.
Lemma people_reads : forall e l b, people_ok (Some (e, l)) ->
  new_frames w [FText (new_header ($"IPLS")) (to_id3v23 e) (add_pairs [] l)] = Ok b -> lenN b < 2 ^ 32 ->
  reads b (people_frame (Some (e, l))).
Proof.
  intros e l b H E L. cbn [people_frame].
  apply (reads_new [FText (new_header ($"IPLS")) (to_id3v23 e) (add_pairs [] l)]); auto. constructor; [|constructor].
  intros b' E' L'. eapply (reads_leaf _ ($"IPLS")); [exact E'|exact L'|reflexivity|now apply valid_b|repeat split|].
  intros x kids Ex. cbn [leaf_bytes] in Ex. rewrite add_pairs_text in Ex.
  destruct (pairs_text_read w (to_id3v23 e) (mkFH (Valid ($"TIPL")) ff_default) l v23) as (b2 & B & NE & P).
  { unfold people_ok in *. rewrite enc23_idem. exact H. }
  assert (x = b2) as -> by congruence. split; auto.
  change (upgraded (upgrade_v3 ($"IPLS")) ($"IPLS")) with ($"TIPL"). rewrite dispatch. cbv zeta.
  change (kind_of_name ($"TIPL")) with KPairs. cbv iota.
  change (f_flags (FText (new_header ($"IPLS")) (to_id3v23 e) (add_pairs [] l))) with ff_default. rewrite P, enc23_idem. reflexivity.
Qed.

(** *** The list *)
Inductive raw_form : frame -> list frame -> Prop :=
| raw_other : forall f l, old_form m f l -> f_id f <> Valid ($"TDRC") -> raw_form f l
| raw_date : forall fl e t, flags_ok fl -> ts_verify t = Ok tt -> 1000 <= ts_year t ->
    raw_form (FTime (mkFH (Valid ($"TDRC")) fl) e t) (date_parts fl e t).
Definition join_people (i : option (encoding * str)) (p : option (encoding * list (str * str))) : option (encoding * str) :=
  match p, i with
  | None, _ => i
  | Some (e, ps), None => Some (to_id3v23 e, add_pairs [] ps)
  | Some (_, ps), Some (e', v) => Some (e', add_pairs v ps)
  end.
Lemma join_cons : forall i f l, join_people i (people (f :: l)) = join_people (join_people i (people_of f)) (people l).
Proof.
  intros. cbn [people]. destruct (people_of f) as [[e ps]|], (people l) as [[e' qs]|], i as [[e0 v]|]; cbn [join_people]; auto; now rewrite add_pairs_app.
Qed.
Lemma not_people : forall f, f_id f <> Valid ($"TIPL") -> f_id f <> Valid ($"TMCL") -> people_of f = None.
Proof.
  intros f A B. destruct f; auto. cbn [people_of]. unfold f_id in *. cbn [f_header] in *.
  destruct (id_eqb (fh_id h) (Valid $"TIPL")) eqn:E. apply id_eqb_eq in E. congruence.
  destruct (id_eqb (fh_id h) (Valid $"TMCL")) eqn:E2. apply id_eqb_eq in E2. congruence. reflexivity.
Qed.
Lemma in_names_true : forall s l, In s l -> in_names s l = true.
Proof. intros s l I. apply existsb_exists. exists s. split; auto. apply list_eqb_refl. Qed.
Lemma reads_items : forall l outs, Forall2 raw_form l outs -> forall root ipls b,
  items23 (frame_bytes w) w root ipls l = Ok b -> lenN b < 2 ^ 32 -> (if root then 1 else 0) + lenN (filter is_root l) <= 1 ->
  exists b1 b2, b = b1 ++ b2 /\ reads b1 (concat outs) /\
    match join_people ipls (people l) with
    | None => b2 = []
    | Some (e, v) => new_frames w [FText (new_header ($"IPLS")) e v] = Ok b2
    end.
Proof.
  induction 1 as [|f out l outs R F IH]; intros root ipls b E L Hr.
  - cbn [items23] in E. exists [], b. split; auto. split; [apply reads_nil|]. cbn [people join_people]. destruct ipls as [[e v]|]; congruence.
  - rewrite join_cons. cbn [concat].
    assert (Hr' : (if root then 1 else 0) + lenN (filter is_root l) <= 1) by (cbn [filter] in Hr; destruct (is_root f); rewrite ?lenN_cons in Hr; lia).
    assert (NW : forall bs fs, people_of f = None -> reads bs out -> (let? r := items23 (frame_bytes w) w root ipls l in Ok (bs ++ r)) = Ok b ->
       new_frames w fs = Ok bs -> exists b1 b2, b = b1 ++ b2 /\ reads b1 (out ++ concat outs) /\
       match join_people (join_people ipls (people_of f)) (people l) with None => b2 = [] | Some (e, v) => new_frames w [FText (new_header ($"IPLS")) e v] = Ok b2 end).
    { intros bs fs NP Rb X _. destruct (items23 (frame_bytes w) w root ipls l) as [r| |] eqn:Er; cbn [bind] in X; try discriminate X. injection X as <-.
      rewrite lenN_app in L. destruct (IH root ipls r Er ltac:(lia) Hr') as (b1 & b2 & -> & R1 & R2).
      exists (bs ++ b1), b2. rewrite app_assoc. split; auto. split. now apply reads_app. rewrite NP. exact R2. }
    cbn [items23] in E.
    destruct R as [f out O NT | fl e t Hf V Hy].
    + destruct O as [f K _ _ | f s Hi Is | fl e t Hf V Hy | fl e t Hf V | fl e v Hf T | n fl e ps In'].
      * pose proof K as K0. rewrite <- v23 in K. destruct (header_ok_inv w inflate o f K) as (s & Hi & Hn & Hk & Hrn & Hfl & _).
        specialize (Hrn v23). destruct (conv_same s f Hi Hrn) as (C1 & C2).
        assert (NP : people_of f = None) by (apply not_people; rewrite Hi; intro X; injection X as ->; apply Hrn; unfold RENAMED; cbn [In]; tauto).
        rewrite NP. cbn [join_people].
        rewrite Hi in E. cbn [is_valid_id negb] in E. rewrite C1, C2 in E. destruct (verify_frame f); cbn [negb] in E; [|discriminate E].
        unfold write_one in E. fold (is_root f) in E. destruct (is_root f && root) eqn:Ro.
        { exfalso. apply andb_true_iff in Ro as [Ro ->]. cbn [filter] in Hr. rewrite Ro, lenN_cons in Hr. lia. }
        destruct (frame_bytes w f) as [v| |] eqn:Ev; cbn [bind] in E; try discriminate E.
        destruct (emit_frame w f v) as [b1| |] eqn:Em; cbn [bind] in E; try discriminate E.
        destruct (items23 (frame_bytes w) w (root || is_root f) ipls l) as [r| |] eqn:Er; cbn [bind] in E; try discriminate E. injection E as <-.
        rewrite lenN_app in L. unfold emit_frame, f_name in Em. rewrite Hi in Em. cbn [id_str] in Em. pose proof (emit_len _ _ _ _ _ Em) as Lv.
        destruct (all_P w inflate o cover f K v Ev ltac:(lia)) as (NE & PC).
        assert (Rb : reads b1 [restored true f]).
        { apply (reads_emit s (f_flags f) v); auto. lia. intros fuel Hf. rewrite up3, upgrade_none by (now apply not_old). cbn [upgraded].
          specialize (PC fuel Hf). rewrite wv3, v23, Hi in PC. exact PC. }
        destruct (IH (root || is_root f) ipls r Er ltac:(lia)) as (c1 & c2 & -> & R1 & R2).
        { cbn [filter] in Hr. destruct root, (is_root f); cbn [orb]; rewrite ?lenN_cons in Hr; lia. }
        exists (b1 ++ c1), c2. rewrite app_assoc. split; auto. split; auto. apply reads_app; auto.
      * rewrite Hi in E. cbn [is_valid_id negb] in E. unfold f_name in E. rewrite Hi in E. cbn [id_str] in E.
        rewrite (in_names_true s V4_ONLY Is) in E.
        assert (NP : people_of f = None).
        { apply not_people; rewrite Hi; intro X; injection X as ->; unfold NEW_IN_V24 in Is; cbn [In] in Is; repeat destruct Is as [Is|Is]; try discriminate Is; contradiction. }
        rewrite NP. cbn [join_people]. apply (IH root); auto.
      * exfalso. apply NT. reflexivity.
      * replace (conv23 (FTime (mkFH (Valid $"TDOR") fl) e t)) with (CNew [FTime (mkFH (Valid ($"TORY")) fl) e (year_only t)]) in E.
        2: { unfold conv23. rewrite V. reflexivity. }
        cbv beta iota in E. change (negb (is_valid_id (f_id (FTime (mkFH (Valid $"TDOR") fl) e t)))) with false in E.
        change (in_names (f_name (FTime (mkFH (Valid $"TDOR") fl) e t)) V4_ONLY) with false in E.
        change (negb (verify_frame (FTime (mkFH (Valid $"TDOR") fl) e t))) with false in E. cbv iota in E.
        destruct (new_frames w _) as [bs| |] eqn:En; cbn [bind] in E; try discriminate E.
        eapply NW; eauto. apply original_reads; auto. clear - E L. destruct (items23 _ _ _ _ _); cbn [bind] in E; try discriminate E. injection E as <-. rewrite lenN_app in L. lia.
      * change (conv23 (FText (mkFH (Valid $"TCON") fl) e v)) with (CNew [FText (mkFH (Valid ($"TCON")) fl) e (join_genres (genres true v))]) in E.
        cbv beta iota in E. change (negb (is_valid_id (f_id (FText (mkFH (Valid $"TCON") fl) e v)))) with false in E.
        change (in_names (f_name (FText (mkFH (Valid $"TCON") fl) e v)) V4_ONLY) with false in E.
        change (negb (verify_frame (FText (mkFH (Valid $"TCON") fl) e v))) with false in E. cbv iota in E.
        destruct (new_frames w _) as [bs| |] eqn:En; cbn [bind] in E; try discriminate E.
        eapply NW; eauto. eapply reads_new; [|exact En|].
        { constructor; [|constructor]. intros b' E' L'. apply reads_text; auto. now apply valid_b. intros [X|[X|X]]; discriminate X. }
        clear - E L. destruct (items23 _ _ _ _ _); cbn [bind] in E; try discriminate E. injection E as <-. rewrite lenN_app in L. lia.
      * set (f := FKeyValue (mkFH (Valid n) fl) e ps) in *.
        assert (X : is_valid_id (f_id f) = true /\ in_names (f_name f) V4_ONLY = false /\ verify_frame f = true /\ conv23 f = CPairs e ps /\ people_of f = Some (e, ps)).
        { cbn [In] in In'. destruct In' as [<- | [<- | []]]; repeat split. }
        destruct X as (X1 & X2 & X3 & X4 & X5). rewrite X1, X2, X3, X4 in E. cbn [negb] in E. rewrite X5. clearbody f. cbn [app].
        destruct ipls as [[e' v]|]; cbn [join_people]; eapply IH; eauto.
    + set (f := FTime (mkFH (Valid $"TDRC") fl) e t) in *.
      assert (X : is_valid_id (f_id f) = true /\ in_names (f_name f) V4_ONLY = false /\ verify_frame f = true /\ conv23 f = CNew (split_tdrc fl e t) /\ people_of f = None).
      { repeat split. unfold conv23, f. rewrite V. reflexivity. }
      destruct X as (X1 & X2 & X3 & X4 & X5). rewrite X1, X2, X3, X4 in E. cbn [negb] in E. clearbody f.
      destruct (new_frames w _) as [bs| |] eqn:En; cbn [bind] in E; try discriminate E.
      eapply NW; eauto. apply date_reads; auto. clear - E L. destruct (items23 _ _ _ _ _); cbn [bind] in E; try discriminate E. injection E as <-. rewrite lenN_app in L. lia.
Qed.

(** *** What is added to the list *)
Lemma add_all_app : forall fs acc, Forall named acc -> Forall named fs -> NoDup (map identity_of (acc ++ fs)) -> add_all fs acc = acc ++ fs.
Proof.
  induction fs as [|f fs IH]; intros acc Na Nf ND. now rewrite app_nil_r. apply Forall_cons_iff in Nf as [N1 Nf].
  unfold add_all. cbn [fold_left]. fold (add_all fs (add_read f acc)). rewrite add_new; auto.
  - rewrite IH; auto. now rewrite <- app_assoc. apply Forall_app. split; auto. now rewrite <- app_assoc.
  - rewrite map_app in ND. cbn [map] in ND. apply NoDup_remove_2 in ND. intro I. apply ND. apply in_or_app. auto.
Qed.
Lemma text_named : forall s fl e v, kind_of_name s = KText -> named (FText (mkFH (Valid s) fl) e v).
Proof. intros. exists s. auto. Qed.
Lemma time_named : forall s fl e t, kind_of_name s = KTime -> named (FTime (mkFH (Valid s) fl) e t).
Proof. intros. exists s. auto. Qed.
Lemma ok_named3 : forall f, frame_ok true m f -> named f.
Proof. intros f [f' ((s & A & B & C & D) & _) _ _]. exists s. auto. Qed.
Lemma old_named : forall f l, old_form m f l -> Forall named l.
Proof.
  destruct 1; repeat constructor; auto using text_named, time_named.
  apply restored_named, ok_named3; auto.
Qed.
Lemma raw_named : forall f l, raw_form f l -> Forall named l.
Proof.
  destruct 1. eapply old_named; eauto. unfold date_parts. constructor. now apply time_named.
  destruct (ts_month t), (ts_day t), (ts_hour t), (ts_minute t); cbn [app]; repeat (constructor; [now apply text_named|]); constructor.
Qed.
Lemma people_named : forall p, Forall named (people_frame p).
Proof. destruct p as [[e l]|]; repeat constructor. exists ($"TIPL"). auto. Qed.
Lemma concat_named : forall l outs, Forall2 raw_form l outs -> Forall named (concat outs).
Proof. induction 1; cbn [concat]. constructor. apply Forall_app. split; auto. eapply raw_named; eauto. Qed.
Lemma frames23 : forall l outs fb tail fuel, Forall2 raw_form l outs -> people_ok (people l) -> lenN (filter is_root l) <= 1 ->
  NoDup (map identity_of (concat outs ++ people_frame (people l))) ->
  write_frames w l = Ok fb -> lenN fb < 2 ^ 32 -> hd 0 tail = 0 -> (length (fb ++ tail) < fuel)%nat ->
  read_all inflate fuel V3 false o [] (fb ++ tail) = Ok (concat outs ++ people_frame (people l), []).
Proof.
  intros l outs fb tail fuel F P R ND E L Ht Hf. unfold write_frames, items in E. rewrite v23 in E.
  destruct (reads_items l outs F false None fb E L R) as (b1 & b2 & -> & R1 & E2).
  assert (R2 : reads b2 (people_frame (people l))).
  { destruct (people l) as [[e ps]|] eqn:X; cbn [join_people] in E2.
    - apply people_reads; auto. rewrite lenN_app in L. lia.
    - subst b2. apply reads_nil. }
  destruct (reads_app _ _ _ _ R1 R2 fuel [] tail) as (k & K & ->). rewrite app_length in Hf. lia.
  destruct k; [lia|]. cbn [read_all]. rewrite <- wv3, (read_end w) by auto. cbn [bind].
  rewrite add_all_app; auto. apply Forall_app. split. eapply concat_named; eauto. apply people_named.
Qed.
End Reads.

(** *** Putting the date together again *)
Definition other_than (id : frame_id) (f : frame) : bool := negb (id_eqb (f_id f) id).
Lemma rotate_perm : forall A (l : list A), Permutation (rotate l) l.
Proof. destruct l; cbn [rotate]; auto. symmetry. apply Permutation_cons_append. Qed.
Lemma remove_perm : forall id l, Permutation (fl_remove id l) (filter (other_than id) l).
Proof.
  intros id l. unfold fl_remove. change (filter (other_than id) l) with ([] ++ filter (other_than id) l). generalize (@nil frame).
  induction l as [|f l IH]; intros kept; cbn [fl_partition filter]. now rewrite app_nil_r.
  unfold other_than at 1. destruct (id_eqb (f_id f) id); cbn [negb].
  - rewrite IH. apply Permutation_app_tail, rotate_perm.
  - rewrite IH. now rewrite <- app_assoc.
Qed.
Lemma filter_perm : forall A (p : A -> bool) l l', Permutation l l' -> Permutation (filter p l) (filter p l').
Proof.
  induction 1; cbn [filter]; auto. destruct (p x); auto. destruct (p x), (p y); auto. constructor. etransitivity; eauto.
Qed.
Lemma remove_perm2 : forall id l l', Permutation l l' -> Permutation (fl_remove id l) (filter (other_than id) l').
Proof. intros. rewrite remove_perm. now apply filter_perm. Qed.
Lemma filter_all2 : forall A (p : A -> bool) l, Forall (fun x => p x = true) l -> filter p l = l.
Proof. induction l; intros; auto. apply Forall_cons_iff in H as [H1 H2]. cbn [filter]. rewrite H1. f_equal. auto. Qed.
Lemma get_one : forall id f l l', Permutation l l' -> f_id f = id -> In f l' -> (forall g, In g l' -> f_id g = id -> g = f) -> fl_get id l = Some f.
Proof.
  intros id f l l' P Hf I U. unfold fl_get. destruct (find _ l) as [g|] eqn:E.
  - apply find_some in E as (Ig & Eg). apply id_eqb_eq in Eg. f_equal. apply U; auto. eapply Permutation_in; eauto.
  - exfalso. pose proof (find_none _ _ E f (Permutation_in _ (Permutation_sym P) I)) as X. cbv beta in X. rewrite Hf in X.
    assert (id_eqb id id = true) by (now apply id_eqb_eq). congruence.
Qed.
Lemma get_none : forall id l l', Permutation l l' -> Forall (fun g => f_id g <> id) l' -> fl_get id l = None.
Proof.
  intros id l l' P F. unfold fl_get. destruct (find _ l) as [g|] eqn:E; auto. apply find_some in E as (Ig & Eg). apply id_eqb_eq in Eg.
  rewrite Forall_forall in F. exfalso. apply (F g); auto. eapply Permutation_in; eauto.
Qed.
Definition plain (f : frame) : Prop := f_id f <> TDRC /\ f_id f <> TDAT /\ f_id f <> TIME.
Lemma insert_time : forall e t l, Forall (fun g => f_id g <> TDRC) l ->
  fst (fl_insert (FTime (mkFH TDRC ff_default) e t) l) = l ++ [FTime (mkFH TDRC ff_default) e t].
Proof.
  intros e t l F. unfold fl_insert. change (in_names _ ONE_PER_TAG) with false. cbv iota. rewrite take_first_none; auto.
  eapply Forall_impl; [|exact F]. cbv beta. intros g N. destruct g; auto. cbn [frame_eqb]. destruct (header_dec h (mkFH TDRC ff_default)) as [-> |]; auto.
  exfalso. apply N. reflexivity.
Qed.
Lemma other_true : forall id l, Forall (fun g => f_id g <> id) l -> filter (other_than id) l = l.
Proof.
  intros. apply filter_all2. eapply Forall_impl; [|exact H]. cbv beta. intros g N. unfold other_than. destruct (id_eqb _ _) eqn:E; auto.
  apply id_eqb_eq in E. congruence.
Qed.
Lemma filter_app3 : forall A (p : A -> bool) a b c, filter p (a ++ b ++ c) = filter p a ++ filter p b ++ filter p c.
Proof. intros. now rewrite !filter_app. Qed.
Lemma limits_use : forall t, in_limits t ->
  (ts_hour t <> None -> ts_month t <> None /\ ts_day t <> None) /\ (ts_day t <> None -> ts_month t <> None) /\
  (forall x, ts_month t = Some x -> x < 60) /\ (forall x, ts_day t = Some x -> x < 60) /\ (forall x, ts_hour t = Some x -> x < 60) /\
  (forall x, ts_minute t = Some x -> x < 60) /\ (ts_minute t <> None -> ts_hour t <> None).
Proof.
  intros [y mo d h mi s] H. unfold in_limits, opt_le, subfields in H. cbn [ts_year ts_month ts_day ts_hour ts_minute ts_second] in *.
  destruct mo, d, h, mi, s; cbn [chain] in H; rewrite ?Forall_cons_iff in H;
  repeat split; intros; try congruence; try match goal with E : Some _ = Some _ |- _ => injection E as <- end; intuition (try congruence; try lia).
Qed.
Lemma construct_date : forall A B fl e t, Forall plain A -> Forall plain B -> ts_verify t = Ok tt ->
  Permutation (construct_tdrc (A ++ date_parts fl e t ++ B)) (A ++ FTime (mkFH TDRC ff_default) (stored true e) (kept_date t) :: B).
Proof.
  intros A B fl e t PA PB V. apply C18_verify_exact in V. apply limits_use in V as (V1 & V2 & V3 & V4 & V5 & V6 & V7).
  set (e' := stored true e). set (D0 := FTime (mkFH TDRC fl) e' (only_year t)).
  set (DD := match ts_month t, ts_day t with Some mo, Some d => [FText (mkFH TDAT fl) e' (pad 2 d ++ pad 2 mo)] | _, _ => [] end).
  set (TT := match ts_hour t, ts_minute t with Some h, Some mi => [FText (mkFH TIME fl) e' (pad 2 h ++ pad 2 mi)] | _, _ => [] end).
  change (date_parts fl e t) with (D0 :: DD ++ TT).
  assert (N1 : forall id l, (id = TDRC \/ id = TDAT \/ id = TIME) -> Forall plain l -> Forall (fun g => f_id g <> id) l).
  { intros id l H F. eapply Forall_impl; [|exact F]. intros g (P1 & P2 & P3). destruct H as [-> | [-> | ->]]; auto. }
  assert (DT : Forall (fun g => f_id g = TDAT) DD) by (unfold DD; destruct (ts_month t), (ts_day t); repeat constructor).
  assert (TI : Forall (fun g => f_id g = TIME) TT) by (unfold TT; destruct (ts_hour t), (ts_minute t); repeat constructor).
  assert (NE : forall id id' l, Forall (fun g => f_id g = id') l -> id' <> id -> Forall (fun g => f_id g <> id) l)
    by (intros; eapply Forall_impl; [|eassumption]; cbv beta; intros; congruence).
  assert (Q1 : TDAT <> TDRC) by discriminate. assert (Q2 : TIME <> TDRC) by discriminate. assert (Q3 : TIME <> TDAT) by discriminate.
  assert (Rm : fl_removed TDRC (A ++ (D0 :: DD ++ TT) ++ B) = [D0]).
  { unfold fl_removed. rewrite filter_app3. cbn [filter]. rewrite filter_app.
    assert (Z : forall l, Forall (fun g => f_id g <> TDRC) l -> filter (fun f => id_eqb (f_id f) TDRC) l = []).
    { intros l F. apply filter_none. eapply Forall_impl; [|exact F]. cbv beta. intros g N. destruct (id_eqb _ _) eqn:E; auto. apply id_eqb_eq in E. congruence. }
    rewrite !Z; eauto. }
  unfold construct_tdrc. rewrite Rm. cbn [hd_error]. unfold D0 at 1. cbv beta iota. cbn [only_year ts_month]. cbv zeta.
  change (ts_year (only_year t)) with (ts_year t).
  pose proof (remove_perm TDRC (A ++ (D0 :: DD ++ TT) ++ B)) as P. rewrite filter_app3 in P. cbn [filter] in P.
  replace (other_than TDRC D0) with false in P by reflexivity. cbv iota in P. rewrite filter_app in P. rewrite !other_true in P by eauto.
  set (L := fl_remove TDRC (A ++ (D0 :: DD ++ TT) ++ B)) in *. clearbody L. clear Rm.
  assert (NL : Forall (fun g => f_id g <> TDRC) L).
  { eapply Permutation_Forall; [symmetry; exact P|]. apply Forall_app. split; eauto. apply Forall_app. split; eauto. apply Forall_app. split; eauto. }
  assert (GD : fl_get TDAT L = hd_error DD).
  { unfold DD in *. destruct (ts_month t) as [mo|], (ts_day t) as [d|]; cbn [hd_error].
    - eapply get_one; [exact P|reflexivity| |]. apply in_or_app. right. left. reflexivity.
      intros g I E. apply in_app_or in I as [I|I]. { exfalso. pose proof (N1 TDAT A ltac:(auto) PA) as X. rewrite Forall_forall in X. now apply (X g). }
      destruct I as [<- |I]; auto. exfalso. apply in_app_or in I as [I|I].
      pose proof (NE TDAT TIME TT TI Q3) as X. rewrite Forall_forall in X. now apply (X g).
      pose proof (N1 TDAT B ltac:(auto) PB) as X. rewrite Forall_forall in X. now apply (X g).
    - eapply get_none; [exact P|]. apply Forall_app. split; eauto. cbn [app]. apply Forall_app. split; eauto.
    - eapply get_none; [exact P|]. apply Forall_app. split; eauto. cbn [app]. apply Forall_app. split; eauto.
    - eapply get_none; [exact P|]. apply Forall_app. split; eauto. cbn [app]. apply Forall_app. split; eauto. }
  assert (GT : fl_get TIME L = hd_error TT).
  { unfold TT in *. destruct (ts_hour t) as [mo|], (ts_minute t) as [d|]; cbn [hd_error].
    - eapply get_one; [exact P|reflexivity| |]. apply in_or_app. right. apply in_or_app. left. apply in_or_app. right. left. reflexivity.
      intros g I E. apply in_app_or in I as [I|I]. { exfalso. pose proof (N1 TIME A ltac:(auto) PA) as X. rewrite Forall_forall in X. now apply (X g). }
      apply in_app_or in I as [I|I].
      apply in_app_or in I as [I|I]. { exfalso. rewrite Forall_forall in DT. rewrite (DT g I) in E. discriminate E. } destruct I as [<- |[]]; auto.
      exfalso. pose proof (N1 TIME B ltac:(auto) PB) as X. rewrite Forall_forall in X. now apply (X g).
    - eapply get_none; [exact P|]. apply Forall_app. split; eauto. rewrite app_nil_r. apply Forall_app. split; eauto.
    - eapply get_none; [exact P|]. apply Forall_app. split; eauto. rewrite app_nil_r. apply Forall_app. split; eauto.
    - eapply get_none; [exact P|]. apply Forall_app. split; eauto. rewrite app_nil_r. apply Forall_app. split; eauto. }
  unfold text_pair, fl_get_text. rewrite GD, GT. clear GD GT.
  assert (FIN : forall x X M, Permutation X (A ++ M ++ B) -> M = [] -> Permutation (X ++ [x]) (A ++ x :: B)).
  { intros x X M PX ->. cbn [app] in PX. rewrite PX. rewrite <- app_assoc. apply Permutation_app_head. symmetry. apply Permutation_cons_append. }
  unfold kept_date. unfold DD, TT in *.
  destruct (ts_day t) as [d|] eqn:Ed.
  2: { assert (ts_hour t = None) as Eh by (destruct (ts_hour t); auto; destruct V1; congruence).
       assert (ts_minute t = None) as Em by (destruct (ts_minute t); auto; destruct V7; congruence). rewrite Eh, Em in *.
       destruct (ts_month t); cbn [hd_error]; rewrite insert_time by auto; eapply FIN; eauto. }
  destruct (ts_month t) as [mo|] eqn:Em. 2: { exfalso. apply V2; congruence. }
  cbn [hd_error]. rewrite two_u8_pad; auto.
  destruct (ts_minute t) as [mi|] eqn:Emi.
  - destruct (ts_hour t) as [h|] eqn:Eh. 2: { exfalso. apply V7; congruence. }
    cbn [hd_error]. rewrite two_u8_pad; auto. rewrite insert_time by auto. set (x := FTime _ _ _).
    rewrite remove_perm2. 2: { apply remove_perm2. apply Permutation_app_tail, P. }
    rewrite !filter_app. cbn [filter]. replace (other_than TDAT x) with true by reflexivity. cbn [filter]. replace (other_than TIME x) with true by reflexivity.
    rewrite !(other_true _ A), !(other_true _ B) by eauto.
    change (other_than TDAT (FText (mkFH TDAT fl) e' (pad 2 d ++ pad 2 mo))) with false.
    change (other_than TDAT (FText (mkFH TIME fl) e' (pad 2 h ++ pad 2 mi))) with true. cbv iota. cbn [filter app].
    change (other_than TIME (FText (mkFH TIME fl) e' (pad 2 h ++ pad 2 mi))) with false. cbv iota. cbn [filter app].
    apply (FIN x (A ++ B) []); auto.
  - assert (X : match ts_hour t with Some _ => @nil frame | None => [] end = []) by (destruct (ts_hour t); auto).
    rewrite X in *. cbn [hd_error]. rewrite insert_time by auto. set (x := FTime _ _ _).
    rewrite remove_perm2. 2: { apply Permutation_app_tail, P. }
    rewrite !filter_app. cbn [filter]. replace (other_than TDAT x) with true by reflexivity.
    rewrite !(other_true _ A), !(other_true _ B) by eauto.
    change (other_than TDAT (FText (mkFH TDAT fl) e' (pad 2 d ++ pad 2 mo))) with false. cbv iota. cbn [app].
    apply (FIN x (A ++ B) []); auto.
Qed.
Definition is_date (f : frame) : bool := id_eqb (f_id f) TDRC.
Lemma restored_plain : forall m f, frame_ok true m f -> f_id f <> TDAT -> f_id f <> TIME -> plain (restored true f).
Proof.
  intros m f K A B. unfold plain, f_id in *. rewrite restored_header. split; auto.
  destruct K as [f ((s & Hi & _ & _ & R) & _) _ _]. unfold f_id in Hi. rewrite Hi. intro X. injection X as ->. apply R; auto. unfold RENAMED. cbn [In]. tauto.
Qed.
Lemma old_plain : forall m f l, old_form m f l -> is_date f = false -> Forall plain l /\ f_id f <> TDRC.
Proof.
  assert (X : forall f, is_date f = false -> f_id f <> TDRC) by (intros f H E; unfold is_date in H; rewrite E in H; discriminate H).
  destruct 1; intros D; (split; [|now apply X]).
  - constructor; auto. eapply restored_plain; eauto.
  - constructor.
  - discriminate D.
  - constructor; [split; [|split]; discriminate|constructor].
  - constructor; [split; [|split]; discriminate|constructor].
  - constructor.
Qed.
Lemma people_plain : forall p, Forall plain (people_frame p).
Proof. destruct p as [[e l]|]; constructor; auto. split; [|split]; discriminate. Qed.
Lemma olds_plain : forall m l outs, Forall2 (old_form m) l outs -> Forall (fun f => is_date f = false) l ->
  Forall plain (concat outs) /\ Forall (fun f => f_id f <> TDRC) l.
Proof.
  induction 1; intros F; cbn [concat]. auto. apply Forall_cons_iff in F as [F1 F]. destruct (old_plain _ _ _ H F1). destruct (IHForall2 F).
  split; [apply Forall_app; auto|constructor; auto].
Qed.
Lemma one_split : forall A (p : A -> bool) l, lenN (filter p l) <= 1 ->
  Forall (fun x => p x = false) l \/ exists a x b, l = a ++ x :: b /\ p x = true /\ Forall (fun x => p x = false) a /\ Forall (fun x => p x = false) b.
Proof.
  induction l as [|x l IH]; intros H. auto. cbn [filter] in H. destruct (p x) eqn:E.
  - right. exists [], x, l. repeat split; auto. rewrite lenN_cons in H. assert (filter p l = []) as Z by (destruct (filter p l); auto; rewrite lenN_cons in H; lia).
    clear - Z. induction l; auto. cbn [filter] in Z. destruct (p a) eqn:E; [discriminate|constructor; auto].
  - destruct (IH H) as [F|(a & y & b & -> & Hy & Fa & Fb)]. auto. right. exists (x :: a), y, b. repeat split; auto.
Qed.
Lemma NoDup_app2 : forall A (a b : list A), NoDup a -> NoDup b -> (forall x, In x a -> ~ In x b) -> NoDup (a ++ b).
Proof.
  induction a; intros; auto. apply NoDup_cons_iff in H as [H2 H]. cbn [app]. constructor.
  - intro I. apply in_app_or in I as [I|I]; auto. apply (H1 a); auto. now left.
  - apply IHa; auto. intros. apply H1. now right.
Qed.
Lemma NoDup_app_inv : forall A (a b : list A), NoDup (a ++ b) -> NoDup a /\ NoDup b /\ (forall x, In x a -> ~ In x b).
Proof.
  induction a; intros b H; cbn [app] in H. repeat split; auto. constructor. apply NoDup_cons_iff in H as [H1 H2]. destruct (IHa b H2) as (X & Y & Z).
  repeat split; auto. constructor; auto. intro. apply H1. apply in_or_app. auto. intros x [<- |I]; auto. intro. apply H1. apply in_or_app. auto.
Qed.
Lemma parts_nodup : forall A fl e t, Forall plain A -> NoDup (map identity_of A) -> NoDup (map identity_of (date_parts fl e t ++ A)).
Proof.
  intros A fl e t P ND. rewrite map_app. apply NoDup_app2; auto.
  - unfold date_parts. destruct (ts_month t), (ts_day t), (ts_hour t), (ts_minute t); cbn [app map identity_of f_name f_id f_header fh_id id_str];
    repeat change (in_names _ ONE_PER_TAG) with false; cbv iota; cbn [fh_id];
    repeat (constructor; [cbn [In]; intuition discriminate|]); constructor.
  - intros i I I2. apply in_map_iff in I as (g & <- & I). apply in_map_iff in I2 as (h & E & I2). rewrite Forall_forall in P. destruct (P h I2) as (P1 & P2 & P3).
    assert (X : f_id h = f_id g).
    { assert (G : (exists n v, (n = TDAT \/ n = TIME) /\ g = FText (mkFH n fl) (stored true e) v) \/ exists v, g = FTime (mkFH TDRC fl) (stored true e) v).
      { destruct I as [<- |I]. right. eexists. reflexivity. left. apply in_app_or in I as [I|I].
        destruct (ts_month t), (ts_day t); try contradiction; destruct I as [<- |[]]; exists TDAT; eexists; split; auto; reflexivity.
        destruct (ts_hour t), (ts_minute t); try contradiction; destruct I as [<- |[]]; exists TIME; eexists; split; auto; reflexivity. }
      unfold identity_of at 2 in E. destruct G as [(n & v & N & ->)|(v & ->)].
      - replace (in_names (f_name (FText (mkFH n fl) (stored true e) v)) ONE_PER_TAG) with false in E by (destruct N as [-> | ->]; reflexivity).
        unfold identity_of in E. destruct (in_names (f_name h) ONE_PER_TAG); [discriminate E|]. destruct h; try discriminate E. injection E as E. exact E.
      - change (in_names (f_name (FTime (mkFH TDRC fl) (stored true e) v)) ONE_PER_TAG) with false in E.
        unfold identity_of in E. destruct (in_names (f_name h) ONE_PER_TAG); [discriminate E|]. destruct h; try discriminate E. now injection E as -> -> ->. }
    destruct I as [<- |I]. now apply P1. apply in_app_or in I as [I|I].
    + destruct (ts_month t), (ts_day t); try contradiction; destruct I as [<- |[]]. now apply P2.
    + destruct (ts_hour t), (ts_minute t); try contradiction; destruct I as [<- |[]]. now apply P3.
Qed.
Lemma Forall2_app3 : forall A B (R : A -> B -> Prop) a x b l, Forall2 R (a ++ x :: b) l ->
  exists la y lb, l = la ++ y :: lb /\ Forall2 R a la /\ R x y /\ Forall2 R b lb.
Proof.
  induction a; intros x b l H; cbn [app] in H; inversion H; subst.
  - exists [], y, l'. auto.
  - destruct (IHa _ _ _ H4) as (la & z & lb & -> & F1 & R1 & F2). exists (y :: la), z, lb. auto.
Qed.
Lemma Forall2_raw : forall o l outs, Forall2 (old_form (fo_mode o)) l outs -> Forall (fun f => f_id f <> TDRC) l -> Forall2 (raw_form o) l outs.
Proof. induction 1; intros F; constructor; apply Forall_cons_iff in F as [F1 F]; auto. now apply raw_other. Qed.
Lemma Forall2_app_back : forall A B (R : A -> B -> Prop) a b la lb, Forall2 R a la -> Forall2 R b lb -> Forall2 R (a ++ b) (la ++ lb).
Proof. induction 1; intros; cbn [app]; auto. Qed.
Lemma concat_mid : forall A (a b : list (list A)) x, concat (a ++ x :: b) = concat a ++ x ++ concat b.
Proof. intros. rewrite concat_app. reflexivity. Qed.
Lemma old_frames : forall w inflate o l outs, fo_cover o = true -> fo_implicit o = true -> w_v23 w = true ->
  Forall2 (old_form (fo_mode o)) l outs -> people_ok (people l) -> lenN (filter is_root l) <= 1 -> lenN (filter is_date l) <= 1 ->
  NoDup (map identity_of (concat outs ++ people_frame (people l))) ->
  exists raw, (forall fb tail fuel, write_frames w l = Ok fb -> lenN fb < 2 ^ 32 -> hd 0 tail = 0 -> (length (fb ++ tail) < fuel)%nat ->
      read_all inflate fuel V3 false o [] (fb ++ tail) = Ok (raw, [])) /\
    Permutation (construct_tdrc raw) (concat outs ++ people_frame (people l)).
Proof.
  intros w inflate o l outs Hc Hi Hw F P R D ND. apply one_split in D as [D|(a & d & b & -> & Dd & Da & Db)].
  - destruct (olds_plain _ _ _ F D) as (F1 & F2). exists (concat outs ++ people_frame (people l)). split.
    + intros. apply (frames23 w inflate o) with (fuel := fuel); auto. now apply Forall2_raw.
    + unfold construct_tdrc, fl_removed. rewrite filter_none; auto. apply Forall_app. split.
      * eapply Forall_impl; [|exact F1]. intros g (N & _). destruct (id_eqb _ _) eqn:E; auto. apply id_eqb_eq in E. contradiction.
      * eapply Forall_impl; [|apply people_plain]. intros g (N & _). destruct (id_eqb _ _) eqn:E; auto. apply id_eqb_eq in E. contradiction.
  - destruct (Forall2_app3 _ _ _ _ _ _ _ F) as (oa & x & ob & -> & Fa & Fd & Fb).
    destruct (olds_plain _ _ _ Fa Da) as (A1 & A2). destruct (olds_plain _ _ _ Fb Db) as (B1 & B2).
    assert (Hd : f_id d = TDRC) by (now apply id_eqb_eq).
    set (pf := people_frame _) in *.
    assert (exists fl e t, d = FTime (mkFH TDRC fl) e t /\ x = [FTime (mkFH TDRC ff_default) (stored true e) (kept_date t)] /\
      flags_ok fl /\ ts_verify t = Ok tt /\ 1000 <= ts_year t) as (fl & e & t & -> & -> & Hf & V & Y).
    { inversion Fd; subst; try discriminate Hd.
      - exfalso. destruct (restored_plain _ _ H H0 H1) as (X & _). apply X. unfold f_id in *. now rewrite restored_header.
      - exfalso. rewrite H in Hd. injection Hd as ->. unfold NEW_IN_V24 in H0. cbn [In] in H0. repeat destruct H0 as [H0|H0]; try discriminate H0; contradiction.
      - exists fl, e, t. split; [reflexivity|]. split; [reflexivity|]. auto.
      - exfalso. cbn [In] in H. destruct H as [<- |[<- |[]]]; discriminate Hd. }
    exists (concat (oa ++ date_parts fl e t :: ob) ++ pf). split.
    + intros. apply (frames23 w inflate o) with (fuel := fuel); auto.
      * apply Forall2_app_back. now apply Forall2_raw. constructor. now apply raw_date. now apply Forall2_raw.
      * apply (Permutation_NoDup (l := map identity_of (date_parts fl e t ++ (concat oa ++ concat ob ++ pf)))).
        { apply Permutation_map. rewrite concat_mid. fold pf. rewrite <- !app_assoc. rewrite Permutation_app_swap_app. reflexivity. }
        apply parts_nodup. apply Forall_app. split; auto. apply Forall_app. split; auto. apply people_plain.
        apply (Permutation_NoDup (l' := map identity_of (FTime (mkFH TDRC ff_default) (stored true e) (kept_date t) :: (concat oa ++ concat ob ++ pf)))) in ND.
        now apply NoDup_cons_iff in ND as [_ ND].
        apply Permutation_map. rewrite concat_mid. rewrite <- !app_assoc. cbn [app]. symmetry. apply Permutation_middle.
    + rewrite !concat_mid. rewrite <- !app_assoc. apply (construct_date (concat oa) (concat ob ++ pf)); auto.
      apply Forall_app. split; auto. apply people_plain.
Qed.

(** *** Genres *)
Lemma find_none_c : forall c s, Forall (fun x => x <> c) s -> find_char c s = None.
Proof. induction s; intros F; auto. apply Forall_cons_iff in F as [F1 F]. cbn [find_char]. destruct (N.eqb_spec a c); [contradiction|]. now rewrite IHs. Qed.
Lemma find_first : forall c s r, Forall (fun x => x <> c) s -> find_char c (s ++ c :: r) = Some (lenN s).
Proof.
  induction s; intros r F; cbn [app find_char]. now rewrite N.eqb_refl. apply Forall_cons_iff in F as [F1 F].
  destruct (N.eqb_spec a c); [contradiction|]. rewrite IHs by auto. now rewrite lenN_cons, N.add_comm.
Qed.
Lemma clean_no : forall g c, c = 0 \/ c = 40 \/ c = 41 -> clean g -> Forall (fun x => x <> c) g.
Proof. intros g c H F. eapply Forall_impl; [|exact F]. cbv beta. intros. lia. Qed.
Lemma nul_cons : forall g h l, nul_list (g :: h :: l) = g ++ 0 :: nul_list (h :: l).
Proof. reflexivity. Qed.
Lemma iter_nul : forall b gs, Forall clean gs -> gs <> [] -> last gs [] <> [] -> forall fuel, (length (nul_list gs) <= fuel)%nat ->
  genres_iter fuel b (nul_list gs) = map (parse_genre b) gs.
Proof.
  intros b. induction gs as [|g gs IH]; intros F NE La fuel Hf. congruence. apply Forall_cons_iff in F as [F1 F].
  destruct gs as [|h gs].
  - cbn [nul_list last] in *. destruct g as [|c g]; [congruence|]. destruct fuel; [cbn in Hf; lia|]. cbn [genres_iter].
    rewrite (find_none_c 0), (find_none_c 41) by (apply clean_no; auto). reflexivity.
  - rewrite nul_cons in *. set (r := nul_list (h :: gs)) in *.
    destruct fuel; [rewrite app_length in Hf; cbn in Hf; lia|].
    assert (genres_iter (S fuel) b (g ++ 0 :: r) = match find_char 0 (g ++ 0 :: r) with
      | Some i => parse_genre b (takeN i (g ++ 0 :: r)) :: genres_iter fuel b (dropN (i + 1) (g ++ 0 :: r)) | None => [] end) as ->.
    { rewrite find_first by (apply clean_no; auto). cbn [genres_iter]. rewrite find_first by (apply clean_no; auto). destruct g; reflexivity. }
    rewrite find_first by (apply clean_no; auto). rewrite takeN_app by auto. replace (lenN g + 1) with (lenN (g ++ [0])) by (now rewrite lenN_app).
    change (g ++ 0 :: r) with (g ++ [0] ++ r). rewrite app_assoc, dropN_app by auto.
    rewrite IH; auto. discriminate. rewrite app_length in Hf. cbn [length] in Hf. fold r. lia.
Qed.
Lemma join_no_nul : forall gs, Forall clean gs -> Forall (fun x => x <> 0) (join_genres gs).
Proof.
  induction gs as [|g gs IH]; intros F. constructor. apply Forall_cons_iff in F as [F1 F]. cbn [join_genres]. apply Forall_app. split; auto.
  assert (Forall (fun x => x <> 0) g) by (apply clean_no; auto).
  destruct (list_eqb g _). repeat (constructor; [discriminate|]); constructor.
  destruct (list_eqb g _). repeat (constructor; [discriminate|]); constructor.
  destruct (empty gs && _); auto. constructor. discriminate. apply Forall_app. split; auto. constructor. discriminate. constructor.
Qed.
Lemma iter_paren : forall b g r fuel, clean g -> Forall (fun x => x <> 0) r ->
  genres_iter (S fuel) b (40 :: g ++ 41 :: r) = parse_genre b g :: genres_iter fuel b r.
Proof.
  intros b g r fuel C Z. cbn [genres_iter]. rewrite (find_none_c 0).
  2: { constructor. discriminate. apply Forall_app. split. apply clean_no; auto. constructor; auto. discriminate. }
  change (40 :: g ++ 41 :: r) with ((40 :: g) ++ 41 :: r). rewrite find_first. 2: { constructor. discriminate. apply clean_no; auto. }
  cbn [app starts]. change (dropN 1 (40 :: g ++ 41 :: r)) with (g ++ 41 :: r).
  replace (starts 40 (g ++ 41 :: r)) with false. 2: { destruct g as [|c g]; auto. apply Forall_cons_iff in C as [C1 _]. cbn [app starts]. symmetry. apply N.eqb_neq. lia. }
  change (40 =? 40) with true. cbv iota. rewrite lenN_cons. replace (1 + lenN g - 1) with (lenN g) by lia. rewrite takeN_app by auto. f_equal.
  replace (1 + lenN g + 1) with (lenN (40 :: g ++ [41])) by (rewrite lenN_cons, lenN_app; change (lenN [41]) with 1; lia).
  replace (40 :: g ++ 41 :: r) with ((40 :: g ++ [41]) ++ r) by (cbn [app]; now rewrite <- app_assoc). now rewrite dropN_app.
Qed.
Lemma iter_join : forall gs, Forall clean gs -> last gs [0] <> [] -> forall fuel, (length (join_genres gs) <= fuel)%nat ->
  genres_iter fuel false (join_genres gs) = map (parse_genre false) gs.
Proof.
  induction gs as [|g gs IH]; intros F La fuel Hf. destruct fuel; reflexivity. apply Forall_cons_iff in F as [F1 F].
  pose proof (join_no_nul gs F) as Z. cbn [join_genres map] in *.
  assert (La' : last gs [0] <> []) by (destruct gs; [discriminate|exact La]).
  rewrite app_length in Hf.
  destruct (list_eqb g _) eqn:E1; [|destruct (list_eqb g ($"Cover")) eqn:E2].
  - apply list_eqb_eq in E1 as ->. destruct fuel; [cbn in Hf; lia|]. change ($"(RX)" ++ join_genres gs) with (40 :: $"RX" ++ 41 :: join_genres gs).
    rewrite iter_paren; auto. 2: repeat (constructor; [repeat split; discriminate|]); constructor. rewrite IH; auto. cbn in Hf. lia.
  - apply list_eqb_eq in E2 as ->. destruct fuel; [cbn in Hf; lia|]. change ($"(CR)" ++ join_genres gs) with (40 :: $"CR" ++ 41 :: join_genres gs).
    rewrite iter_paren; auto. 2: repeat (constructor; [repeat split; discriminate|]); constructor. rewrite IH; auto. cbn in Hf. lia.
  - destruct (empty gs && negb (is_some (parse_uint U8_MAX g))) eqn:E3.
    + apply andb_true_iff in E3 as [E3 _]. destruct gs; [|discriminate E3]. cbn [join_genres map]. rewrite app_nil_r. cbn [last] in La.
      destruct g as [|c g]; [congruence|]. destruct fuel; [cbn in Hf; lia|]. cbn [genres_iter].
      rewrite (find_none_c 0), (find_none_c 41) by (apply clean_no; auto). reflexivity.
    + destruct fuel; [cbn in Hf; lia|]. cbn [app]. rewrite <- app_assoc. cbn [app]. rewrite iter_paren; auto. rewrite IH; auto.
      cbn [length] in Hf. rewrite app_length in Hf. lia.
Qed.
Lemma parse_twice : forall g, parse_genre false (parse_genre true g) = parse_genre false g.
Proof.
  intro g. unfold parse_genre at 2. destruct (3 <? lenN (utf8_enc g)) eqn:L; auto. destruct (parse_uint U64_MAX g) eqn:P; cbn [negb]; auto.
  destruct (list_eqb g ($"RX")) eqn:E1. apply list_eqb_eq in E1 as ->. reflexivity.
  destruct (list_eqb g ($"CR")) eqn:E2. apply list_eqb_eq in E2 as ->. reflexivity. reflexivity.
Qed.
Lemma parse_true : forall g, parse_genre true g = g \/ parse_genre true g = $"Remix" \/ parse_genre true g = $"Cover".
Proof.
  intro g. unfold parse_genre. destruct (3 <? lenN (utf8_enc g)); auto. destruct (parse_uint U64_MAX g); cbn [negb]; auto.
  destruct (list_eqb g _); auto. destruct (list_eqb g _); auto.
Qed.
Lemma genres_nul : forall b gs, Forall clean gs -> gs <> [] -> last gs [] <> [] -> genres b (nul_list gs) = map (parse_genre b) gs.
Proof. intros. unfold genres. now apply iter_nul. Qed.
Lemma genres_join : forall gs, Forall clean gs -> gs <> [] -> last gs [] <> [] ->
  genres false (join_genres (genres true (nul_list gs))) = map (parse_genre false) gs.
Proof.
  intros gs F NE La. rewrite genres_nul by auto. unfold genres. rewrite iter_join; auto.
  - rewrite map_map. apply map_ext. apply parse_twice.
  - apply Forall_forall. intros x I. apply in_map_iff in I as (g & <- & I). rewrite Forall_forall in F. specialize (F g I).
    destruct (parse_true g) as [-> | [-> | ->]]; auto; repeat (constructor; [repeat split; discriminate|]); constructor.
  - destruct (exists_last NE) as (a & g & ->). rewrite last_last in La. rewrite map_app. cbn [map]. rewrite last_last.
    destruct (parse_true g) as [-> | [-> | ->]]; auto; discriminate.
Qed.
Lemma digits_none : forall m c s, is_digit c = false -> parse_digits m 0 (c :: s) = None.
Proof. intros m c s H. cbn [parse_digits]. rewrite H. reflexivity. Qed.
Lemma utf8_ascii_len : forall s, Forall (fun c => c < 128) s -> lenN (utf8_enc s) = lenN s.
Proof.
  induction s; intros F; auto. apply Forall_cons_iff in F as [F1 F]. unfold utf8_enc in *. cbn [flat_map]. rewrite lenN_app, lenN_cons, IHs by auto.
  unfold utf8_char. destruct (N.ltb_spec a 0x80); [reflexivity|lia].
Qed.
Lemma small_number : forall n, lenN (to_dec n) <= 3 -> n <= 999.
Proof.
  intros n H. destruct (to_dec_spec n) as (D & V & NE & _). destruct (to_dec n) as [|a [|b [|c [|d l]]]]; rewrite ?lenN_cons in H; [congruence| | | |lia];
  rewrite <- V; rewrite !Forall_cons_iff in D; unfold is_digit in D; cbn [dec_val fold_left]; lia.
Qed.
Lemma dec_len_all : forallb (fun n => lenN (to_dec (N.of_nat n)) <=? 3) (seq 0 192) = true.
Proof. vm_compute. reflexivity. Qed.
Lemma entry_read : forall g s, genre_entry g s -> parse_genre false g = s.
Proof.
  assert (L : forall n, lenN (utf8_enc (to_dec n)) = lenN (to_dec n)).
  { intro n. apply utf8_ascii_len. destruct (to_dec_spec n) as (D & _). eapply Forall_impl; [|exact D]. unfold is_digit. cbv beta. intros. lia. }
  destruct 1; auto; unfold parse_genre.
  - assert (B : (N.to_nat n < 192)%nat) by (change 192%nat with (length GENRES); apply nth_error_Some; congruence).
    pose proof dec_len_all as A. rewrite forallb_forall in A. specialize (A (N.to_nat n) (proj2 (in_seq 192 0 (N.to_nat n)) ltac:(lia))).
    rewrite N2Nat.id in A. rewrite L. destruct (N.ltb_spec 3 (lenN (to_dec n))); [lia|]. rewrite parse_uint_to_dec by (unfold U64_MAX; lia).
    cbn [negb]. now rewrite H.
  - rewrite L. destruct (N.ltb_spec 3 (lenN (to_dec n))); auto. apply small_number in H0. rewrite parse_uint_to_dec by (unfold U64_MAX; lia). cbn [negb].
    destruct (nth_error GENRES (N.to_nat n)) eqn:E; auto. exfalso.
    assert (B : (N.to_nat n < 192)%nat) by (change 192%nat with (length GENRES); apply nth_error_Some; congruence). lia.
  - destruct (3 <? lenN (utf8_enc g)); auto. replace (parse_uint U64_MAX g) with (@None N).
    + destruct (list_eqb g _) eqn:E1. apply list_eqb_eq in E1. contradiction. destruct (list_eqb g ($"CR")) eqn:E2; auto. apply list_eqb_eq in E2. contradiction.
    + symmetry. destruct g as [|c g]; auto. destruct H as (D & N). unfold parse_uint.
      transitivity (parse_digits U64_MAX 0 (c :: g)); [|now apply digits_none].
      destruct c as [|p]; auto. do 6 (destruct p as [p|p|]; auto). contradiction N. reflexivity.
Qed.
