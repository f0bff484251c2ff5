(** Property theorems for the Vorbis comment packet (C78, C79, C80). *)
From Verif Require Import BaseLemmas StrLemmas TextProof PictureProof PictureThm PopmThm VorbisModel.

(** The characters of a field name (the Vorbis comment specification): 0x20 to 0x7D without '='. *)
Definition name_char (c : N) : Prop := 0x20 <= c <= 0x7D /\ c <> 0x3D.
Lemma key_byte_iff : forall c, key_byte c = true <-> name_char c.
Proof. intros. unfold key_byte, name_char. lia. Qed.
Lemma valid_key_iff : forall k, valid_key k = true <-> Forall name_char k.
Proof.
  intros. unfold valid_key. rewrite forallb_forall, Forall_forall. split; intros H x Hx; apply key_byte_iff; auto.
Qed.
Lemma name_ascii : forall k, Forall name_char k -> utf8_enc k = k.
Proof. intros. apply utf8_ascii. eapply Forall_impl; [|exact H]. unfold name_char. lia. Qed.
Lemma utf8_high : forall k, ~ Forall (fun c => c < 128) k -> ~ Forall (fun b => b < 128) (utf8_enc k).
Proof.
  induction k as [|c k IH]; intros H. exfalso; apply H; constructor. cbn [utf8_enc]. intro F. apply Forall_app in F as [F1 F2].
  destruct (N.lt_ge_cases c 128). { apply IH; [intro G; apply H; constructor; auto|exact F2]. }
  unfold utf8_char in F1. destruct (N.ltb_spec c 128); [lia|].
  destruct (c <? 0x800); [|destruct (c <? 0x10000)]; inversion F1; subst; lia.
Qed.
Lemma verify_key_iff : forall k, verify_key k = true <-> k <> [] /\ Forall name_char k.
Proof.
  intros. unfold verify_key. destruct k as [|c k]. split; [discriminate|intros [H _]; congruence].
  remember (c :: k) as s. rewrite valid_key_iff. split.
  - intro H. split. congruence.
    assert (A : Forall (fun c => c < 128) s).
    { destruct (forallb (fun c => c <? 128) s) eqn:E.
      - apply Forall_forall. intros x Hx. rewrite forallb_forall in E. apply E in Hx. lia.
      - exfalso. apply (utf8_high s). + intro G. rewrite (proj2 (forallb_forall _ _)) in E; [discriminate|]. intros x Hx. rewrite Forall_forall in G. apply G in Hx. lia.
        + eapply Forall_impl; [|exact H]. unfold name_char. lia. }
    rewrite utf8_ascii in H by auto. auto.
  - intros [_ H]. now rewrite name_ascii.
Qed.

(** The names reading treats specially. *)
Definition reserved (o : vopts) (k : str) : Prop :=
  lower k = lower MBP \/ lower k = lower COVERART \/
  ((lower k = lower VTRACK \/ lower k = lower VDISC) /\ (vo_implicit o = true \/ k <> upper k)).
Definition item_ok (o : vopts) (i : str * str) : Prop :=
  fst i <> [] /\ Forall name_char (fst i) /\ ~ reserved o (fst i) /\ str_ok (snd i) /\ snd i <> [] /\ last (snd i) 1 <> 0 /\
  lenN (fst i) + 1 + lenN (utf8_enc (snd i)) < 2 ^ 32.
Definition pic_ok (x : picture * pic_info) : Prop :=
  representable (fst x) /\ info_ok (snd x) /\ lenN (as_flac_bytes (fst x) (snd x) true) + 23 < 2 ^ 32.
(** Converted numbers come back if they are the first of their name, or no numbers at all. *)
Definition other_name (names : list str) (i : str * str) : Prop := Forall (fun n => lower (fst i) <> lower n) names.
Inductive number_ok (before : list (str * str)) : str * str -> Prop :=
| number_track : forall n, n <= U32_MAX -> Forall (other_name [VTRACK; VTRACK2]) before -> number_ok before (VTRACK, to_dec n)
| number_disc : forall n, n <= U32_MAX -> Forall (other_name [VDISC]) before -> number_ok before (VDISC, to_dec n)
| number_none : forall k v, k = VTRACK \/ k = VDISC -> str_ok v -> v <> [] -> last v 1 <> 0 -> lenN (utf8_enc v) < 2 ^ 31 -> ~ In 47 v -> parse_uint U32_MAX v = None -> number_ok before (k, v).
Inductive vitems_ok (o : vopts) : list (str * str) -> list (str * str) -> Prop :=
| vitems_nil : forall before, vitems_ok o before []
| vitems_cons : forall before i l, item_ok o i \/ (vo_implicit o = true /\ number_ok before i) -> vitems_ok o (before ++ [i]) l -> vitems_ok o before (i :: l).
Definition vc_ok (o : vopts) (t : vc) : Prop :=
  str_ok (vc_vendor t) /\ last (vc_vendor t) 1 <> 0 /\ lenN (utf8_enc (vc_vendor t)) < 2 ^ 32 /\
  vitems_ok o [] (vc_items t) /\ Forall pic_ok (vc_pics t) /\ lenN (vc_items t) + lenN (vc_pics t) < 2 ^ 32.

Lemma eqi_false : forall a b, lower a <> lower b -> eq_ignore_case a b = false.
Proof. intros. destruct (eq_ignore_case a b) eqn:E; auto. apply eq_ignore_case_iff in E. congruence. Qed.
Lemma upper_lower : forall a, upper (lower a) = upper a.
Proof.
  intros. unfold upper, lower. rewrite map_map. apply map_ext. intro c. unfold upper_ascii, lower_ascii.
  repeat match goal with |- context [if ?b then _ else _] => destruct b eqn:?; try lia end.
Qed.
Lemma lower_upper_eq : forall a b, lower a = lower b -> upper a = upper b.
Proof. intros. now rewrite <- upper_lower, H, upper_lower. Qed.

Definition item_bytes (i : str * str) : bytes := utf8_enc (fst i ++ [61] ++ snd i).
Lemma item_bytes_eq : forall i, Forall name_char (fst i) -> item_bytes i = fst i ++ 61 :: utf8_enc (snd i).
Proof. intros. unfold item_bytes. rewrite !utf8_enc_app, name_ascii by auto. reflexivity. Qed.
Lemma name_no_eq : forall k, Forall name_char k -> ~ In 61 k.
Proof. intros k H I. rewrite Forall_forall in H. apply H in I. unfold name_char in I. lia. Qed.

Lemma read_item : forall o t i, item_ok o i -> read_comment o t (item_bytes i) = Ok (with_vitems t (vc_items t ++ [i])).
Proof.
  intros o t [k v] (K1 & K2 & R & S & V1 & V2 & L). cbn [fst snd] in *. unfold read_comment.
  rewrite item_bytes_eq by auto. cbn [fst snd]. rewrite split_once_app by now apply name_no_eq.
  unfold reserved in R. rewrite (eqi_false k MBP) by tauto. rewrite (eqi_false k COVERART) by tauto.
  assert (D : vdec (utf8_enc v) = Ok v) by (unfold vdec; now rewrite utf8_field).
  rewrite D. destruct (eq_ignore_case k VTRACK || eq_ignore_case k VDISC) eqn:E.
  - assert (E' : lower k = lower VTRACK \/ lower k = lower VDISC) by (apply orb_prop in E as [E|E]; apply eq_ignore_case_iff in E; auto).
    destruct (vo_implicit o) eqn:I. tauto. cbn [negb].
    assert (U : k = upper k). { destruct (list_eq_dec N.eq_dec k (upper k)); auto. exfalso. apply R. right. right. auto. }
    replace (if eq_ignore_case k VTRACK then VTRACK else VDISC) with k; auto.
    destruct (eq_ignore_case k VTRACK) eqn:ET.
    + apply eq_ignore_case_iff, lower_upper_eq in ET. rewrite U, ET. reflexivity.
    + cbn [orb] in E. apply eq_ignore_case_iff, lower_upper_eq in E. rewrite U, E. reflexivity.
  - apply valid_key_iff in K2. rewrite K2. reflexivity.
Qed.

(** What every field satisfies *)
Definition item_plain (i : str * str) : Prop :=
  fst i <> [] /\ Forall name_char (fst i) /\ str_ok (snd i) /\ snd i <> [] /\ last (snd i) 1 <> 0 /\ lenN (fst i) + 1 + lenN (utf8_enc (snd i)) < 2 ^ 32.
Lemma digits_len : forall fuel n, (length (digits_fuel fuel n) <= fuel)%nat.
Proof. induction fuel as [|fuel IH]; intros n; cbn [digits_fuel]; auto. destruct (n <? 10); [cbn [length]; lia|]. rewrite app_length. cbn [length]. specialize (IH (n / 10)). lia. Qed.
Lemma to_dec_u32_len : forall n, n <= U32_MAX -> lenN (to_dec n) <= 33.
Proof.
  intros n L. unfold to_dec, lenN. pose proof (digits_len (S (N.to_nat (N.log2 n))) n) as D. assert (N.log2 n <= N.log2 U32_MAX) as M by now apply N.log2_le_mono. change (N.log2 U32_MAX) with 31 in M. lia.
Qed.
Lemma dec_text : forall n, n <= U32_MAX -> str_ok (to_dec n) /\ to_dec n <> [] /\ last (to_dec n) 1 <> 0 /\ lenN (utf8_enc (to_dec n)) <= 33 /\ ~ In 47 (to_dec n).
Proof.
  intros n L. destruct (to_dec_spec n) as (F & V & NE & _). assert (D : Forall (fun c => 48 <= c <= 57) (to_dec n)) by (eapply Forall_impl; [|exact F]; unfold is_digit; lia).
  split; [eapply Forall_impl; [|exact D]; cbv beta; unfold scalar, scalarb; lia|]. split; [exact NE|]. split.
  { destruct (exists_last NE) as (l & c & E). rewrite E in D |- *. rewrite last_last. apply Forall_app in D as [_ D]. inversion D; subst. lia. }
  split; [|intro I; rewrite Forall_forall in D; apply D in I; lia]. rewrite utf8_ascii by (eapply Forall_impl; [|exact D]; cbv beta; lia). now apply to_dec_u32_len.
Qed.
Lemma number_plain : forall before i, number_ok before i -> item_plain i.
Proof.
  assert (T : Forall name_char VTRACK /\ Forall name_char VDISC) by (split; apply valid_key_iff; reflexivity). destruct T as [T1 T2].
  intros before i [n L _|n L _|k v K S NE LA SZ _ _]; unfold item_plain; cbn [fst snd].
  - destruct (dec_text n L) as (A & B & C & D & _). repeat (split; [solve [auto|discriminate]|]). change (lenN VTRACK) with 11. lia.
  - destruct (dec_text n L) as (A & B & C & D & _). repeat (split; [solve [auto|discriminate]|]). change (lenN VDISC) with 10. lia.
  - destruct K as [-> | ->]; repeat (split; [solve [auto|discriminate]|]); [change (lenN VTRACK) with 11|change (lenN VDISC) with 10]; lia.
Qed.
Lemma item_ok_plain : forall o i, item_ok o i -> item_plain i.
Proof. intros o i (A & B & C & D & E & F & G). repeat split; auto. Qed.
Lemma vitems_plain : forall o before l, vitems_ok o before l -> Forall item_plain l.
Proof. induction 1 as [|before i l [I|[_ I]] _ IH]; constructor; eauto using item_ok_plain, number_plain. Qed.
Lemma vitems_items : forall o before l, Forall (item_ok o) l -> vitems_ok o before l.
Proof. intros o before l F. revert before. induction F; intros before; constructor; auto. Qed.
Lemma vremove_none : forall key l todo read, Forall (other_name [key]) l -> vremove_loop todo read 0 key l = (l, 0%nat).
Proof.
  intros key l todo. induction todo as [|todo IH]; intros read F; cbn [vremove_loop]; auto. destruct (nth_error l read) as [i|] eqn:E; auto.
  apply nth_error_In in E. pose proof (proj1 (Forall_forall _ _) F i E) as G. inversion G; subst. unfold vkey_is. rewrite eqi_false by auto. now apply IH.
Qed.
Lemma removed_none : forall key t, Forall (other_name [key]) (vc_items t) -> vc_removed key t = t.
Proof. intros key [v its ps] F. unfold vc_removed, vc_remove. rewrite vremove_none by auto. reflexivity. Qed.
Lemma insert_new : forall key v t, verify_key key = true -> Forall (other_name [key]) (vc_items t) -> vc_insert key v t = with_vitems t (vc_items t ++ [(key, v)]).
Proof.
  intros key v t V F. unfold vc_insert. rewrite V. do 2 f_equal. induction F as [|i l Hi F IH]; auto. cbn [filter]. inversion Hi; subst. unfold vkey_is at 1. rewrite eqi_false by auto. cbn [negb]. now rewrite IH.
Qed.
Lemma no_slash : forall v, ~ In 47 v -> split_once 47 v = None.
Proof. induction v as [|c v IH]; intros H; auto. cbn [split_once]. destruct (N.eqb_spec c 47) as [->|]; [exfalso; apply H; now left|]. rewrite IH; auto. intro I. apply H. now right. Qed.
Lemma read_number_ok : forall o t i, vo_implicit o = true -> number_ok (vc_items t) i -> read_comment o t (item_bytes i) = Ok (with_vitems t (vc_items t ++ [i])).
Proof.
  intros o t i IM H. pose proof (number_plain _ _ H) as (_ & P2 & P3 & _ & P5 & _).
  rewrite item_bytes_eq by auto. unfold read_comment. rewrite split_once_app by now apply name_no_eq.
  assert (D : vdec (utf8_enc (snd i)) = Ok (snd i)) by (unfold vdec; now rewrite utf8_field).
  assert (SPL : forall f before, Forall (other_name (f :: before)) (vc_items t) -> Forall (other_name [f]) (vc_items t) /\ Forall (other_name before) (vc_items t)).
  { intros f before F. split; (eapply Forall_impl; [|exact F]); intros x X; inversion X; subst; repeat constructor; auto. }
  destruct H as [n L F|n L F|k v K S NE LA SZ SL PN]; cbn [fst snd] in *.
  - change (eq_ignore_case VTRACK MBP) with false. change (eq_ignore_case VTRACK COVERART) with false. change (eq_ignore_case VTRACK VTRACK) with true. cbn [orb]. rewrite D, IM. cbn [negb].
    destruct (dec_text n L) as (_ & _ & _ & _ & SL). unfold number_pair. rewrite no_slash by auto. rewrite parse_uint_to_dec by auto. unfold vc_set_track, vc_remove_track. destruct (SPL _ _ F) as [F1 F2].
    rewrite (removed_none VTRACK t) by auto. rewrite removed_none by auto. now rewrite insert_new.
  - change (eq_ignore_case VDISC MBP) with false. change (eq_ignore_case VDISC COVERART) with false. change (eq_ignore_case VDISC VTRACK) with false. change (eq_ignore_case VDISC VDISC) with true. cbn [orb]. rewrite D, IM. cbn [negb].
    destruct (dec_text n L) as (_ & _ & _ & _ & SL). unfold number_pair. rewrite no_slash by auto. rewrite parse_uint_to_dec by auto. unfold vc_set_disk. now rewrite insert_new.
  - destruct K as [-> | ->].
    + change (eq_ignore_case VTRACK MBP) with false. change (eq_ignore_case VTRACK COVERART) with false. change (eq_ignore_case VTRACK VTRACK) with true. cbn [orb]. rewrite D, IM. cbn [negb]. unfold number_pair. rewrite no_slash, PN by auto. reflexivity.
    + change (eq_ignore_case VDISC MBP) with false. change (eq_ignore_case VDISC COVERART) with false. change (eq_ignore_case VDISC VTRACK) with false. change (eq_ignore_case VDISC VDISC) with true. cbn [orb]. rewrite D, IM. cbn [negb]. unfold number_pair. rewrite no_slash, PN by auto. reflexivity.
Qed.

Definition pic_bytes (x : picture * pic_info) : bytes := MBP ++ [61] ++ as_flac_bytes (fst x) (snd x) true.
Lemma read_pic : forall o t x, pic_ok x -> read_comment o t (pic_bytes x) = Ok (if vo_cover o then with_vpics t (vc_pics t ++ [x]) else t).
Proof.
  intros o t [p i] (R & I & L). cbn [fst snd] in *. unfold read_comment, pic_bytes. cbn [fst snd].
  change (MBP ++ [61] ++ ?x) with (MBP ++ 61 :: x). rewrite split_once_app.
  2:{ apply name_no_eq. apply valid_key_iff. reflexivity. }
  rewrite eq_ignore_case_refl. destruct (vo_cover o); cbn [negb]; auto. rewrite C56_flac_picture by auto. reflexivity.
Qed.

Lemma create_comments_ok : forall l, Forall item_plain l -> create_comments l = Ok (map item_bytes l).
Proof.
  induction l as [|[k v] l IH]; intros H; inversion H; subst; cbn [create_comments map]; auto. destruct H2 as (K1 & K2 & S & V1 & V2 & L). cbn [fst snd] in *.
  destruct v as [|c v]; [congruence|]. remember (c :: v) as w. change (utf8_enc (k ++ [61] ++ w)) with (item_bytes (k, w)).
  assert (lenN (item_bytes (k, w)) < 2 ^ 32) by (rewrite item_bytes_eq by auto; cbn [fst snd]; rewrite lenN_app, lenN_cons; lia).
  destruct (N.ltb_spec U32_MAX (lenN (item_bytes (k, w)))). unfold U32_MAX in *. lia. rewrite IH by auto. reflexivity.
Qed.
Lemma create_pictures_ok : forall l, Forall pic_ok l -> create_pictures l = Ok (map pic_bytes l).
Proof.
  induction l as [|[p i] l IH]; intros H; inversion H; subst; cbn [create_pictures map]; auto. destruct H2 as (R & I & L). cbn [fst snd] in *.
  change (MBP ++ [61] ++ as_flac_bytes p i true) with (pic_bytes (p, i)).
  assert (lenN (pic_bytes (p, i)) < 2 ^ 32) by (unfold pic_bytes; cbn [fst snd]; rewrite !lenN_app; change (lenN MBP) with 22; change (lenN [61]) with 1; lia).
  destruct (N.ltb_spec U32_MAX (lenN (pic_bytes (p, i)))). unfold U32_MAX in *. lia. rewrite IH by auto. reflexivity.
Qed.

(** Reading the comments one after the other, as long as each is understood. *)
Lemma read_list_step : forall n o len c r t t', lenN c < 2 ^ 32 -> lenN c <= len -> read_comment o t c = Ok t' ->
  read_comment_list (S n) o len (comment_bytes c ++ r) t = read_comment_list n o (len - lenN c) r t'.
Proof.
  intros. cbn [read_comment_list]. unfold comment_bytes. rewrite <- app_assoc, read_le_app by auto. cbn [vrd bind].
  destruct (N.ltb_spec len (lenN c)); [lia|]. rewrite read_exact_app by auto. cbn [vrd bind]. rewrite H1. reflexivity.
Qed.
Lemma flat_len : forall l, lenN (flat_map comment_bytes l) = 4 * lenN l + sumN (map lenN l).
Proof.
  induction l; cbn [flat_map map sumN]. reflexivity. unfold comment_bytes at 1. rewrite !lenN_app, le_enc_len, IHl, lenN_cons. lia.
Qed.
Lemma read_list_items : forall o items n len r t, vitems_ok o (vc_items t) items -> sumN (map lenN (map item_bytes items)) <= len ->
  read_comment_list (length items + n) o len (flat_map comment_bytes (map item_bytes items) ++ r) t =
  read_comment_list n o (len - sumN (map lenN (map item_bytes items))) r (with_vitems t (vc_items t ++ items)).
Proof.
  induction items as [|i items IH]; intros n len r t F L.
  - cbn [length map flat_map app sumN Nat.add]. rewrite N.sub_0_r, app_nil_r. destruct t; reflexivity.
  - assert (IP : item_plain i) by (apply vitems_plain in F; now inversion F). inversion F; subst. cbn [length map flat_map sumN Nat.add] in *. rewrite <- app_assoc.
    destruct IP as (K1 & K2 & S & V1 & V2 & LL).
    rewrite (read_list_step _ _ _ _ _ _ (with_vitems t (vc_items t ++ [i]))); [|rewrite item_bytes_eq by auto; rewrite lenN_app, lenN_cons; lia|lia|match goal with X : item_ok _ _ \/ _ |- _ => destruct X as [X|[IM X]] end; [now apply read_item|now apply read_number_ok]].
    rewrite IH by (auto; lia). cbn [vc_items with_vitems]. rewrite <- app_assoc. f_equal. lia.
Qed.
Lemma read_list_pics : forall o pics n len r t, Forall pic_ok pics -> sumN (map lenN (map pic_bytes pics)) <= len ->
  read_comment_list (length pics + n) o len (flat_map comment_bytes (map pic_bytes pics) ++ r) t =
  read_comment_list n o (len - sumN (map lenN (map pic_bytes pics))) r (with_vpics t (vc_pics t ++ if vo_cover o then pics else [])).
Proof.
  induction pics as [|i pics IH]; intros n len r t F L.
  - cbn [length map flat_map app sumN Nat.add]. rewrite N.sub_0_r. destruct t, (vo_cover o); cbn; now rewrite app_nil_r.
  - inversion F; subst. cbn [length map flat_map sumN Nat.add] in *. rewrite <- app_assoc.
    destruct (H1) as (R & I & LL).
    rewrite (read_list_step _ _ _ _ _ _ (if vo_cover o then with_vpics t (vc_pics t ++ [i]) else t));
      [|unfold pic_bytes; rewrite !lenN_app; change (lenN MBP) with 22; change (lenN [61]) with 1; lia|lia|now apply read_pic].
    rewrite IH by (auto; lia). destruct (vo_cover o); cbn [vc_pics with_vpics]; [|rewrite app_nil_r]; rewrite ?app_nil_r, <- ?app_assoc; f_equal; try lia.
Qed.

(** C78. For every tag that can be represented, the packet with whatever signature and framing reads back as the tag, without
    its pictures if these were not wanted. *)
Theorem C78_packet_roundtrip_partial : forall o t sig framing, vc_ok o t ->
  exists b, create_metadata_packet t sig framing = Ok (sig ++ b) /\
    forall tail, lenN b + lenN tail < 2 ^ 34 ->
    read_comments o (lenN (b ++ tail)) (b ++ tail) = Ok (if vo_cover o then t else mkVc (vc_vendor t) (vc_items t) []).
Proof.
  intros o [vn its ps] sig framing (V1 & V2 & V3 & I & P & N). cbn [vc_vendor vc_items vc_pics] in *.
  unfold create_metadata_packet. cbn [vc_vendor vc_items vc_pics]. pose proof (vitems_plain _ _ _ I) as IP. rewrite create_comments_ok by auto. rewrite create_pictures_ok by auto. cbn [bind].
  set (cs := map item_bytes its ++ map pic_bytes ps).
  assert (LC : lenN cs = lenN its + lenN ps) by (unfold cs; rewrite lenN_app, !lenN_map; auto).
  destruct (N.ltb_spec U32_MAX (lenN cs)); [unfold U32_MAX in *; lia|].
  eexists. split; [reflexivity|]. intros tail LT. unfold read_comments, vendor_bytes. rewrite N.mod_small by auto.
  set (vb := utf8_enc vn) in *. set (fr := if framing then [1] else []).
  rewrite <- !app_assoc. rewrite read_le_app by auto. cbn [vrd bind].
  set (rest := le_enc 4 (lenN cs) ++ flat_map comment_bytes cs ++ fr ++ tail).
  assert (LR : lenN rest = 4 + (4 * lenN cs + sumN (map lenN cs)) + lenN fr + lenN tail) by (unfold rest; rewrite !lenN_app, le_enc_len, flat_len; lia).
  set (LEN := lenN (le_enc 4 (lenN vb) ++ vb ++ rest)).
  assert (LL : LEN = 4 + lenN vb + lenN rest) by (unfold LEN; rewrite !lenN_app, le_enc_len; lia).
  destruct (N.ltb_spec LEN (lenN vb)); [lia|]. rewrite read_exact_app by auto. cbn [vrd bind]. unfold read_vendor.
  unfold vb at 1. rewrite utf8_field by auto. cbn [bind]. unfold rest. rewrite read_le_app by (auto; lia). cbn [vrd bind].
  assert (LS : LEN < 2 ^ 34).
  { unfold vendor_bytes in LT. rewrite N.mod_small in LT by auto. fold vb fr in LT. rewrite !lenN_app, !le_enc_len, flat_len in LT. lia. }
  assert (LQ : (LEN - lenN vb) / 4 < 2 ^ 32) by (apply N.div_lt_upper_bound; lia).
  rewrite (N.mod_small _ _ LQ).
  assert (lenN cs <= (LEN - lenN vb) / 4) by (apply N.div_le_lower_bound; lia).
  destruct (N.ltb_spec ((LEN - lenN vb) / 4) (lenN cs)); [lia|].
  assert (SN : sumN (map lenN cs) = sumN (map lenN (map item_bytes its)) + sumN (map lenN (map pic_bytes ps))).
  { unfold cs. rewrite map_app, sumN_app. auto. }
  replace (N.to_nat (lenN cs)) with (length its + (length ps + 0))%nat by (unfold lenN in *; lia).
  unfold cs. rewrite flat_map_app, <- app_assoc. rewrite read_list_items by (auto; lia). rewrite read_list_pics by (auto; lia).
  cbn [read_comment_list with_vitems with_vpics vc_items vc_pics vc_vendor app]. destruct (vo_cover o); reflexivity.
Qed.
Print Assumptions C78_packet_roundtrip_partial.
(** Fields without a value are left out, the others are not affected. *)
Theorem C78_empty_left_out : forall t sig framing,
  create_metadata_packet t sig framing =
  create_metadata_packet (mkVc (vc_vendor t) (filter (fun i => match snd i with [] => false | _ => true end) (vc_items t)) (vc_pics t)) sig framing.
Proof.
  intros [vn its ps] sig framing. unfold create_metadata_packet. cbn [vc_vendor vc_items vc_pics].
  assert (E : create_comments its = create_comments (filter (fun i => match snd i with [] => false | _ => true end) its)); [|now rewrite E].
  induction its as [|[k v] its IH]; [reflexivity|]. cbn [create_comments filter snd]. destruct v as [|c v]; auto. cbn [create_comments]. now rewrite IH.
Qed.
Print Assumptions C78_empty_left_out.
Example C78_empty_ex : vc_dump (mkVc [] [($"A", []); ($"B", $"x")] []) = Ok (le_enc 4 0 ++ le_enc 4 1 ++ comment_bytes ($"B=x")).
Proof. reflexivity. Qed.
Definition ex_vc : vc := mkVc ($"Lavf") [($"TITLE", [233; 0x1F600]); ($"artist", $"a=b")] [(mkPic PCoverFront (Some Png) None [1; 2; 3], mkInfo 1 2 3 4)].
Example C78_ex : vc_ok (mkVo true true Strict) ex_vc /\
  match vc_dump ex_vc with Ok b => read_comments (mkVo true true Strict) (lenN b) b = Ok ex_vc | _ => False end.
Proof.
  split; [|vm_compute; reflexivity]. split; [apply str_okb; reflexivity|]. split; [vm_compute; discriminate|]. split; [vm_compute; reflexivity|].
  split; [|split; [|vm_compute; reflexivity]].
  - apply vitems_items. constructor; [|constructor; [|constructor]]; (split; [discriminate|]; split; [apply valid_key_iff; reflexivity|]; split;
      [unfold reserved; vm_compute; intuition discriminate|]; split; [apply str_okb; reflexivity|]; split; [discriminate|]; split; vm_compute; [discriminate|reflexivity]).
  - constructor; [|constructor]. split; [|split; [repeat split; vm_compute; reflexivity|vm_compute; reflexivity]].
    unfold representable. cbn. repeat split; auto; try (repeat constructor; vm_compute; reflexivity).
Qed.
(** What does not come back: an empty value, a picture key as an item, other names of the track number when numbers are converted. *)
Theorem C78_unrestricted_refuted : forall o, ~ (forall t b, vc_dump t = Ok b -> read_comments o (lenN b) b = Ok t).
Proof.
  intros o H. specialize (H (mkVc [] [($"TITLE", [])] []) [0; 0; 0; 0; 0; 0; 0; 0] eq_refl).
  assert (E : read_comments o (lenN [0; 0; 0; 0; 0; 0; 0; 0]) [0; 0; 0; 0; 0; 0; 0; 0] = Ok (mkVc [] [] [])) by (destruct o as [c i []]; reflexivity).
  rewrite E in H. discriminate.
Qed.
Print Assumptions C78_unrestricted_refuted.
Theorem C78_leading_zero_refuted : ~ (forall o t b, vo_implicit o = true -> Forall (fun i => verify_key (fst i) = true /\ snd i <> []) (vc_items t) ->
  vc_dump t = Ok b -> read_comments o (lenN b) b = Ok t).
Proof.
  intro H. set (t := mkVc [] [(VTRACK, $"01")] []). set (b := le_enc 4 0 ++ le_enc 4 1 ++ comment_bytes (VTRACK ++ $"=01")).
  assert (F : Forall (fun i : str * str => verify_key (fst i) = true /\ snd i <> []) (vc_items t)) by (constructor; [split; [reflexivity|discriminate]|constructor]).
  assert (D : vc_dump t = Ok b) by (vm_compute; reflexivity).
  assert (E : read_comments (mkVo true true Relaxed) (lenN b) b = Ok (mkVc [] [(VTRACK, $"1")] [])) by (vm_compute; reflexivity).
  rewrite (H (mkVo true true Relaxed) t b eq_refl F D) in E. discriminate.
Qed.
Print Assumptions C78_leading_zero_refuted.

(** C80: total on every input, in every mode, except for one field. *)
Lemma mime_total : forall d, 8 <= lenN d -> mimetype_from_bin d <> Panic.
Proof.
  intros d L. do 8 (destruct d as [|? d]; [vm_compute in L; congruence|]).
  unfold mimetype_from_bin. repeat match goal with |- context [if ?b then _ else _] => destruct b end; discriminate.
Qed.
(** The comment is a COVERART field with an image of less than eight bytes. *)
Definition tiny_cover (c : bytes) : Prop :=
  exists k v d, c = k ++ [61] ++ v /\ lower k = lower COVERART /\ b64_decode v = Some d /\ lenN d < 8.
Lemma split_once_some : forall c s a b, split_once c s = Some (a, b) -> s = a ++ c :: b.
Proof.
  induction s as [|x s IH]; cbn [split_once]; intros a b H; [discriminate|]. destruct (x =? c) eqn:E.
  - apply N.eqb_eq in E. inversion H; subst. reflexivity.
  - destruct (split_once c s) as [[u w]|]; [|discriminate]. inversion H; subst. cbn [app]. f_equal. auto.
Qed.
Lemma read_comment_panic : forall o t c, read_comment o t c = Panic -> vo_cover o = true /\ tiny_cover c.
Proof.
  intros o t c H. unfold read_comment in H. destruct (split_once 61 c) as [[k v]|] eqn:E; [|discriminate]. apply split_once_some in E.
  destruct (eq_ignore_case k MBP).
  { destruct (vo_cover o); cbn [negb] in H; [|discriminate]. pose proof (C57_flac_picture_total v true (vo_mode o)).
    destruct (from_flac_bytes _ _ _); try congruence; try discriminate. unfold strictly in H. destruct (is_strict _); discriminate. }
  destruct (eq_ignore_case k COVERART) eqn:EC.
  { destruct (vo_cover o); cbn [negb] in H; [|discriminate]. split; auto. destruct (b64_decode v) as [d|] eqn:ED.
    - exists k, v, d. repeat split; auto. now apply eq_ignore_case_iff. destruct (N.lt_ge_cases (lenN d) 8); auto.
      pose proof (mime_total d H0). destruct (mimetype_from_bin d); try discriminate. congruence.
    - unfold strictly in H. destruct (is_strict _); discriminate. }
  assert (VD : vdec v <> Panic) by (unfold vdec; destruct (utf8_decode v); discriminate).
  destruct (eq_ignore_case k VTRACK || eq_ignore_case k VDISC).
  { destruct (vdec v); try congruence. destruct (vo_implicit o); cbn [negb] in H; [|discriminate]. destruct (number_pair a) as [x y]. discriminate.
    unfold strictly in H. destruct (is_strict _); discriminate. }
  destruct (valid_key k).
  { destruct (vdec v); try congruence; try discriminate. unfold strictly in H. destruct (is_strict _); discriminate. }
  unfold strictly in H. destruct (is_strict _); discriminate.
Qed.
Theorem C80_read_total_partial : forall o len r, read_comments o len r = Panic ->
  vo_cover o = true /\ exists pre c post, r = pre ++ c ++ post /\ tiny_cover c.
Proof.
  intros o len r H. unfold read_comments in H.
  destruct (read_le 4 r) as [[vlen r1]|] eqn:E1; cbn [vrd bind] in H; [|discriminate]. destruct (len <? vlen); [discriminate|].
  destruct (read_exact vlen r1) as [[vb r2]|] eqn:E2; cbn [vrd bind] in H; [|discriminate].
  destruct (read_vendor _ vb) eqn:EV; cbn [bind] in H; try discriminate.
  2:{ unfold read_vendor in EV. destruct (utf8_decode vb); try discriminate; destruct (is_strict _); try discriminate; destruct (utf16_decode vb); discriminate. }
  destruct (read_le 4 r2) as [[n r3]|] eqn:E3; cbn [vrd bind] in H; [|discriminate]. destruct (_ <? n); [discriminate|].
  assert (X1 : exists p, r = p ++ r1) by (unfold read_le in E1; destruct (read_exact 4 r) as [[b r']|] eqn:E; [|discriminate]; inversion E1; subst; apply read_exact_spec in E as [E _]; eauto).
  assert (X2 : exists p, r1 = p ++ r2) by (apply read_exact_spec in E2 as [E2 _]; eauto).
  assert (X3 : exists p, r2 = p ++ r3) by (unfold read_le in E3; destruct (read_exact 4 r2) as [[b r']|] eqn:E; [|discriminate]; inversion E3; subst; apply read_exact_spec in E as [E _]; eauto).
  assert (L : forall m len r t, read_comment_list m o len r t = Panic -> vo_cover o = true /\ exists pre c post, r = pre ++ c ++ post /\ tiny_cover c).
  { clear. induction m; intros len r t H; cbn [read_comment_list] in H; [discriminate|].
    destruct (read_le 4 r) as [[clen r1]|] eqn:E1; cbn [vrd bind] in H; [|discriminate]. destruct (len <? clen); [discriminate|].
    destruct (read_exact clen r1) as [[c r2]|] eqn:E2; cbn [vrd bind] in H; [|discriminate].
    assert (X1 : exists p, r = p ++ r1) by (unfold read_le in E1; destruct (read_exact 4 r) as [[b r']|] eqn:E; [|discriminate]; inversion E1; subst; apply read_exact_spec in E as [E _]; eauto).
    destruct X1 as [p ->]. apply read_exact_spec in E2 as [-> _].
    destruct (read_comment o t c) eqn:EC; cbn [bind] in H; try discriminate.
    - destruct (IHm _ _ _ H) as (V & a0 & b0 & c0 & -> & T). split; auto. exists (p ++ c ++ a0), b0, c0. rewrite <- !app_assoc. auto.
    - destruct (read_comment_panic _ _ _ EC) as [V T]. split; auto. exists p, c, r2. auto. }
  destruct (L _ _ _ _ H) as (V & a0 & b0 & c0 & -> & T). split; auto. destruct X1 as [p1 ->], X2 as [p2 ->], X3 as [p3 ->].
  exists (p1 ++ p2 ++ p3 ++ a0), b0, c0. rewrite <- !app_assoc. auto.
Qed.
Print Assumptions C80_read_total_partial.
(** Finding: [mimetype_from_bin] slices the first eight bytes of the decoded field. *)
Theorem C80_read_total_refuted : ~ (forall o len r, read_comments o len r <> Panic).
Proof.
  intro H. apply (H (mkVo true true Relaxed) 24 (le_enc 4 0 ++ le_enc 4 1 ++ comment_bytes ($"COVERART=QUJD"))). vm_compute. reflexivity.
Qed.
Print Assumptions C80_read_total_refuted.
Example C80_ex : read_comments (mkVo false true Relaxed) 24 (le_enc 4 0 ++ le_enc 4 1 ++ comment_bytes ($"COVERART=QUJD")) = Ok vc_default /\
  tiny_cover ($"COVERART=QUJD") /\ read_comments (mkVo true true Relaxed) 3 [255; 255; 255; 255] = Err VSize.
Proof.
  repeat split; try (vm_compute; reflexivity). exists COVERART, ($"QUJD"), [65; 66; 67]. repeat split; vm_compute; reflexivity.
Qed.
