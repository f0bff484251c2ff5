(** Reading back a written APE tag. *)
From Verif Require Import BaseLemmas StrLemmas TextProof PictureProof PictureThm ItemKeyThm TagThm ApeModel ApeProof.
From Verif Require Import TagModel.

(** What [ApeItem::new] accepts, and values that survive the text decoding (which drops trailing NULs). *)
Definition key_ok (k : str) : Prop := exists i, ape_item_new k (VText []) = Ok i.
Definition value_ok (v : item_value) : Prop :=
  match v with VText s | VLocator s => str_ok s /\ last s 1 <> 0 | VBinary b => bytes_ok b end.
Definition item_ok (i : ape_item) : Prop := key_ok (ai_key i) /\ value_ok (ai_value i).

Lemma new_ok : forall k v, key_ok k -> ape_item_new k v = Ok (mkApe false k v).
Proof. intros k v (i & H). unfold ape_item_new in *. destruct (existsb (fun k0 => eq_ignore_case k0 k) INVALID_KEYS); [discriminate|]. cbv zeta in *. destruct (negb _); [discriminate|]. destruct (existsb _ k); [discriminate|auto]. Qed.
Lemma new_key_ok : forall k v i, ape_item_new k v = Ok i -> key_ok k /\ i = mkApe false k v.
Proof.
  intros k v i H. unfold key_ok, ape_item_new in *. destruct (existsb (fun k0 => eq_ignore_case k0 k) INVALID_KEYS); [discriminate|]. cbv zeta in *. destruct (negb _); [discriminate|]. destruct (existsb _ k); [discriminate|].
  inv H. eauto.
Qed.
Lemma key_chars : forall k, key_ok k -> Forall (fun c => 32 <= c <= 126) k.
Proof.
  intros k (i & H). unfold ape_item_new in H. destruct (existsb (fun k0 => eq_ignore_case k0 k) INVALID_KEYS); [discriminate|]. cbv zeta in *. destruct (negb _); [discriminate|]. destruct (existsb _ k) eqn:E; [discriminate|].
  apply Forall_forall. intros c C. destruct (N.leb_spec 32 c), (N.leb_spec c 126); try lia.
  all: assert (X : existsb (fun c => negb ((0x20 <=? c) && (c <=? 0x7E))) k = true) by (apply existsb_exists; exists c; split; auto; apply negb_true_iff, andb_false_iff; rewrite !N.leb_gt; lia); congruence.
Qed.
Lemma key_ascii : forall k, key_ok k -> utf8_enc k = k.
Proof. intros. apply utf8_ascii. eapply Forall_impl; [|apply key_chars; eauto]. cbn. lia. Qed.
Lemma key_len : forall k, key_ok k -> 2 <= lenN k <= 255.
Proof.
  intros k K. pose proof (key_ascii k K) as E. destruct K as (i & H). unfold ape_item_new in H. destruct (existsb (fun k0 => eq_ignore_case k0 k) INVALID_KEYS); [discriminate|]. cbv zeta in *. rewrite E in H.
  destruct ((2 <=? lenN k) && (lenN k <=? 255)) eqn:B; [|discriminate]. apply andb_prop in B as [A B]. apply N.leb_le in A, B. lia.
Qed.
Lemma key_dec : forall k, key_ok k -> dec_text k = Ok k.
Proof.
  intros. unfold dec_text. assert (utf8_decode k = Ok k); [|now rewrite H0]. rewrite <- (key_ascii k H) at 1. apply utf8_field.
  - apply Forall_forall. intros c C. pose proof (key_chars k H) as F. rewrite Forall_forall in F. specialize (F c C). unfold scalar, scalarb. apply andb_true_intro. split. apply N.ltb_lt. cbn in F. lia. apply negb_true_iff, andb_false_iff. left. apply N.leb_gt. cbn in F. lia.
  - pose proof (key_chars k H) as F. destruct k as [|c k] using rev_ind; [cbn; lia|]. rewrite last_last. apply Forall_app in F as [_ F]. inv F. lia.
Qed.
Lemma key_bytes_app : forall k r, Forall (fun c => 32 <= c <= 126) k -> key_bytes (k ++ 0 :: r) = Some (k, r).
Proof. induction k; intros; cbn; auto. inv H. destruct (N.eqb_spec a 0); [lia|]. now rewrite IHk. Qed.

Lemma flags_ro : forall i, (N.land (item_flags i) 1 =? 1) = ai_ro i.
Proof. intros [ro k v]. unfold item_flags. cbn [ai_ro ai_value]. destruct v, ro; reflexivity. Qed.
Lemma flags_ty : forall i, N.land (N.shiftr (item_flags i) 1) 3 = match ai_value i with VBinary _ => 1 | VText _ => 0 | VLocator _ => 2 end.
Proof. intros [ro k v]. unfold item_flags. cbn [ai_ro ai_value]. destruct v, ro; reflexivity. Qed.
Lemma flags_bound : forall i, item_flags i < 256 ^ 4.
Proof. intros [ro k v]. unfold item_flags. cbn [ai_ro ai_value]. destruct v, ro; reflexivity. Qed.

Lemma parse_back : forall i pos rest, item_ok i ->
  parse_item (ai_key i) (item_flags i) (lenN (value_bytes (ai_value i))) (pos, value_bytes (ai_value i) ++ rest) = Ok (i, (pos + lenN (value_bytes (ai_value i)), rest)).
Proof.
  intros i pos rest [K V]. unfold parse_item. cbv zeta. rewrite flags_ro, flags_ty. unfold rd_exact. cbn [fst snd]. rewrite read_exact_app by auto. cbn [or_io bind].
  destruct i as [ro k v]. cbn [ai_ro ai_key ai_value] in *.
  assert (B : forall v', Ok (if ro then mkApe true (ai_key (mkApe false k v')) (ai_value (mkApe false k v')) else mkApe false k v', (pos + lenN (value_bytes v), rest))
              = Ok (mkApe ro k v', (pos + lenN (value_bytes v), rest)) :> res ape_error (ape_item * rd)) by (intro; destruct ro; reflexivity).
  destruct v as [s|s|b]; cbn [value_bytes value_ok] in *.
  - change (0 =? 0) with true. cbn iota. unfold dec_text. rewrite utf8_field by tauto. cbn [bind]. rewrite new_ok by auto. cbn [bind]. apply B.
  - change (2 =? 0) with false. change (2 =? 1) with false. change (2 =? 2) with true. cbn iota. unfold dec_text. rewrite utf8_field by tauto. cbn [bind]. rewrite new_ok by auto. cbn [bind]. apply B.
  - change (1 =? 0) with false. change (1 =? 1) with true. cbn iota. cbn [bind]. rewrite new_ok by auto. cbn [bind]. apply B.
Qed.

(** Items of pictures are skipped when cover art is not wanted. *)
Definition shown (cover : bool) (i : ape_item) : bool := negb (existsb (list_eqb (ai_key i)) APE_PICTURE_TYPES && negb cover).
Lemma shown_all : forall i, shown true i = true.
Proof. intros. unfold shown. now rewrite andb_false_r. Qed.
Lemma item_len : forall i, key_ok (ai_key i) -> lenN (item_bytes i) = 9 + lenN (ai_key i) + lenN (value_bytes (ai_value i)).
Proof. intros. unfold item_bytes. cbv zeta. rewrite !lenN_app, !le_enc_len, key_ascii by auto. change (lenN [0]) with 1. lia. Qed.
Lemma insert_fresh : forall i t, ~ In (lower (ai_key i)) (fold_keys (at_items t)) -> ape_insert i t = mkApeTag (at_ro t) (at_items t ++ [i]).
Proof.
  intros. unfold ape_insert, ape_remove. cbn [at_ro at_items]. f_equal. f_equal. apply get_none in H. unfold ape_get in H.
  revert H. induction (at_items t) as [|j l IH]; intros; auto. cbn [filter find] in *. destruct (key_is (ai_key i) j); [discriminate|]. cbn [negb]. f_equal. auto.
Qed.

Lemma read_items_app : forall cover l fuel remaining t pos rest,
  Forall item_ok l -> NoDup (fold_keys (at_items t ++ l)) -> lenN (flat_map item_bytes l) < 2 ^ 32 ->
  lenN (flat_map item_bytes l) + 11 <= remaining -> lenN (flat_map item_bytes l) + 1 <= N.of_nat fuel ->
  read_items fuel (lenN l) remaining cover t (pos, flat_map item_bytes l ++ rest) =
  Ok (mkApeTag (at_ro t) (at_items t ++ filter (shown cover) l), (pos + lenN (flat_map item_bytes l), rest)).
Proof.
  induction l as [|i l IH]; intros fuel remaining t pos rest F ND S32 R Fu.
  - cbn [flat_map filter] in *. rewrite app_nil_r. change (lenN (@nil N)) with 0 in *. destruct fuel; [lia|]. cbn [read_items]. change (lenN (@nil ape_item) =? 0) with true. cbn iota.
    rewrite N.add_0_r. now destruct t.
  - inv F. cbn [flat_map] in *. rewrite lenN_app in *. destruct H1 as [K V]. pose proof (item_len i K) as L. pose proof (key_len _ K) as KL.
    assert (IOK : item_ok i) by (split; auto).
    destruct fuel as [|fuel]; [lia|]. cbn [read_items]. rewrite lenN_cons. destruct (N.eqb_spec (1 + lenN l) 0); [lia|].
    destruct (N.ltb_spec remaining 11); [lia|].
    unfold item_bytes at 1. cbv zeta. rewrite (N.mod_small (lenN _) (2 ^ 32)) by lia. rewrite <- !app_assoc.
    unfold rd_le4. cbn [fst snd]. rewrite read_le_app by (auto; change (256 ^ 4) with (2 ^ 32); lia). cbn [or_io bind].
    destruct (N.ltb_spec remaining (lenN (value_bytes (ai_value i)))); [lia|]. cbn [fst snd].
    rewrite read_le_app by (auto; apply flags_bound). cbn [or_io bind]. rewrite key_ascii by auto.
    unfold rd_key. cbn [fst snd]. change ([0] ++ ?x) with (0 :: x). rewrite key_bytes_app by now apply key_chars. cbn [or_io bind]. rewrite key_dec by auto. cbn [bind].
    replace (1 + lenN l - 1) with (lenN l) by lia.
    unfold shown at 1. cbn [filter].
    assert (ND' : NoDup (fold_keys (at_items t ++ l)) /\ ~ In (lower (ai_key i)) (fold_keys (at_items t ++ l))).
    { rewrite fold_keys_app in *. cbn [fold_keys map] in ND. apply NoDup_remove in ND. exact ND. }
    destruct (existsb (list_eqb (ai_key i)) APE_PICTURE_TYPES && negb cover) eqn:E.
    + cbn [negb]. unfold rd_skip. cbn [fst snd]. rewrite dropN_app by auto.
      rewrite IH; auto; try lia; try tauto. f_equal. f_equal. f_equal. lia.
    + cbn [negb]. rewrite parse_back by auto. cbn [bind].
      rewrite insert_fresh. 2:{ intro I. apply (proj2 ND'). rewrite fold_keys_app. apply in_or_app. auto. }
      rewrite IH; auto; try lia.
      * cbn [at_ro at_items]. f_equal. f_equal. now rewrite <- app_assoc. f_equal. lia.
      * cbn [at_items]. now rewrite <- app_assoc.
Qed.

(** The frame around the items. *)
Lemma frame_len : forall s c f, lenN (frame_bytes s c f) = 32.
Proof. intros. unfold frame_bytes. rewrite !lenN_app, !le_enc_len. reflexivity. Qed.
Lemma le4 : forall pos v rest, v < 2 ^ 32 -> rd_le4 (pos, le_enc 4 v ++ rest) = Ok (v, (pos + 4, rest)).
Proof. intros. unfold rd_le4. cbn [fst snd]. rewrite read_le_app by auto. reflexivity. Qed.

Section Frame.
Variables (data : bytes) (size count : N).
Hypothesis Hs : 32 <= size < 2 ^ 32.
Hypothesis Hc : count < 2 ^ 32.
Hypothesis Hd : size + 32 <= lenN data.
Lemma header_at : forall f pos rest, read_ape_header data false (pos + 8, le_enc 4 2000 ++ le_enc 4 size ++ le_enc 4 count ++ le_enc 4 f ++ le_enc 8 0 ++ rest) =
  Ok (N.min U32_MAX (size + 32), count, (pos + 32, rest)).
Proof using Hs Hc Hd.
  intros. unfold read_ape_header. rewrite le4 by reflexivity. cbn [bind]. rewrite le4 by lia. cbn [bind]. destruct (N.ltb_spec size 32); [lia|].
  rewrite le4 by lia. cbn [bind fst snd]. unfold rd_skip. cbn [fst snd]. change (2000 =? 2000) with true. cbn iota.
  destruct (N.ltb_spec (lenN data) (N.min U32_MAX (size + 32))). { unfold U32_MAX in *. lia. }
  rewrite app_assoc. rewrite dropN_app by (rewrite lenN_app, !le_enc_len; reflexivity). f_equal. f_equal. f_equal. lia.
Qed.
Lemma footer_at : forall rest pos, size <= pos + 32 -> read_ape_header data true (pos + 8, le_enc 4 2000 ++ le_enc 4 size ++ le_enc 4 count ++ rest) =
  Ok (N.min U32_MAX (size + 32), count, rd_at data (pos + 32 - size)).
Proof using Hs Hc Hd.
  intros. unfold read_ape_header. rewrite le4 by reflexivity. cbn [bind]. rewrite le4 by lia. cbn [bind]. destruct (N.ltb_spec size 32); [lia|].
  rewrite le4 by lia. cbn [bind fst snd]. unfold seek_back. destruct (N.ltb_spec (pos + 8 + 4 + 4 + 4) (size - 12)); [lia|].
  cbn [bind]. change (2000 =? 2000) with true. cbn iota. destruct (N.ltb_spec (lenN data) (N.min U32_MAX (size + 32))). { unfold U32_MAX in *. lia. }
  f_equal. f_equal. f_equal. lia.
Qed.
End Frame.

Lemma dump_inv : forall t b, ape_dump t = Ok b -> at_items t <> [] ->
  exists f1 f2, let body := flat_map item_bytes (at_items t) in
  b = frame_bytes (lenN body + 32) (lenN (at_items t)) f1 ++ body ++ frame_bytes (lenN body + 32) (lenN (at_items t)) f2 /\
  lenN (at_items t) < 2 ^ 32 /\ lenN body + 32 < 2 ^ 32.
Proof.
  intros t b H N. unfold ape_dump, create_ape_tag in H. destruct (at_items t) eqn:E; [congruence|]. rewrite <- E in *. clear E N. cbv zeta in H.
  destruct (N.ltb_spec U32_MAX (lenN (at_items t))); [discriminate|]. destruct (N.ltb_spec U32_MAX (lenN (flat_map item_bytes (at_items t)) + 32)); [discriminate|].
  inv H. do 2 eexists. cbv zeta. split. reflexivity. unfold U32_MAX in *. lia.
Qed.

(** Size of the tag as the reader reports it: saturating at 2^32-1. *)
Lemma read_back : forall t b pre post cover,
  Forall item_ok (at_items t) -> NoDup (fold_keys (at_items t)) -> at_items t <> [] -> ape_dump t = Ok b ->
  let data := pre ++ b ++ post in
  let want := Ok (Some (mkApeTag false (filter (shown cover) (at_items t))), Some (N.min U32_MAX (lenN b), lenN (at_items t)), rd_at data (lenN (pre ++ b))) in
  read_ape_tag data false cover true (rd_at data (lenN pre)) = want /\
  read_ape_tag data true cover true (rd_at data (lenN (pre ++ b) - 32)) = want.
Proof.
  intros t b pre post cover F ND Ne D. destruct (dump_inv t b D Ne) as (f1 & f2 & B). cbv zeta in B. destruct B as (B & C1 & C2).
  set (body := flat_map item_bytes (at_items t)) in *. set (cnt := lenN (at_items t)) in *.
  cbv zeta.
  assert (LB : lenN b = lenN body + 64) by (rewrite B, !lenN_app, !frame_len; lia).
  assert (LD : lenN (pre ++ b ++ post) = lenN pre + (lenN body + 64) + lenN post) by (rewrite !lenN_app, LB; lia).
  assert (IT : forall pos rest, read_with_header (N.min U32_MAX (lenN body + 32 + 32)) cnt cover (pos, body ++ frame_bytes (lenN body + 32) cnt f2 ++ rest) =
    Ok (mkApeTag false (filter (shown cover) (at_items t)), (pos + lenN body + 32, rest))).
  { intros. unfold read_with_header. cbn [snd]. unfold cnt, body. rewrite read_items_app; try assumption.
    - cbn [bind ape_default at_ro at_items app]. unfold rd_skip. cbn [fst snd]. rewrite dropN_app by apply frame_len. reflexivity.
    - fold body. lia.
    - fold body. unfold U32_MAX. lia.
    - fold body. rewrite Nat2N.inj_succ. change (N.of_nat (length ?x)) with (lenN x). rewrite lenN_app. lia. }
  assert (AT1 : rd_at (pre ++ b ++ post) (lenN pre) = (lenN pre, b ++ post)) by (unfold rd_at; f_equal; now apply dropN_app).
  assert (AT2 : rd_at (pre ++ b ++ post) (lenN (pre ++ b) - 32) = (lenN (pre ++ b) - 32, frame_bytes (lenN body + 32) cnt f2 ++ post)).
  { unfold rd_at. f_equal. rewrite B. rewrite <- !app_assoc. rewrite !lenN_app, !frame_len.
    rewrite (app_assoc (frame_bytes _ _ f1)), (app_assoc pre). apply dropN_app. rewrite !lenN_app, frame_len. lia. }
  assert (AT3 : rd_at (pre ++ b ++ post) (lenN (pre ++ b)) = (lenN (pre ++ b), post)) by (unfold rd_at; f_equal; rewrite app_assoc; now apply dropN_app).
  assert (AT4 : rd_at (pre ++ b ++ post) (lenN pre + 32) = (lenN pre + 32, body ++ frame_bytes (lenN body + 32) cnt f2 ++ post)).
  { unfold rd_at. f_equal. rewrite B. rewrite <- !app_assoc. rewrite (app_assoc pre). apply dropN_app. rewrite lenN_app, frame_len. lia. }
  remember (pre ++ b ++ post) as data eqn:Dt. rewrite AT3. replace (lenN b) with (lenN body + 32 + 32) by lia.
  split.
  - rewrite AT1. unfold read_ape_tag. rewrite B at 1. unfold frame_bytes at 1. rewrite <- !app_assoc. unfold rd_exact. cbn [fst snd].
    rewrite read_exact_app by reflexivity. cbn [or_io bind]. rewrite list_eqb_refl.
    rewrite (header_at _ (lenN body + 32) cnt) by lia.
    cbn [bind]. rewrite IT. cbn [bind]. do 3 f_equal. rewrite lenN_app. lia.
  - rewrite AT2. unfold read_ape_tag. unfold frame_bytes at 1. rewrite <- !app_assoc. unfold rd_exact. cbn [fst snd].
    rewrite read_exact_app by reflexivity. cbn [or_io bind]. rewrite list_eqb_refl.
    rewrite (footer_at _ (lenN body + 32) cnt); try lia. 2:{ rewrite lenN_app. lia. }
    cbn [bind]. replace (lenN (pre ++ b) - 32 + 32 - (lenN body + 32)) with (lenN pre + 32) by (rewrite lenN_app; lia).
    rewrite AT4, IT. cbn [bind]. do 3 f_equal. rewrite lenN_app. lia.
Qed.
