(** Lemmas about [Id3v1Model]. *)
From Verif Require Import StrLemmas TextModel TextSpec TextProof FileModel Id3v1Model Id3v1Spec.

Lemma sub_app : forall E a m c x y, x = lenN a -> y = lenN a + lenN m -> @sub E (a ++ m ++ c) x y = Ok m.
Proof.
  intros; subst. unfold sub. rewrite !lenN_app.
  replace ((lenN a + lenN m <? lenN a) || (lenN a + (lenN m + lenN c) <? lenN a + lenN m)) with false by lia.
  rewrite dropN_app by auto. rewrite takeN_app; auto. lia.
Qed.
Lemma sub_head : forall E m c y, y = lenN m -> @sub E (m ++ c) 0 y = Ok m.
Proof. intros. apply (sub_app E [] m c); rewrite ?lenN_nil; lia. Qed.
Lemma index_app : forall E a b c i, i = lenN a -> @index E (a ++ b :: c) i = Ok b.
Proof.
  intros; subst. unfold index, lenN. rewrite Nnat.Nat2N.id. rewrite nth_error_app2 by lia. now rewrite Nat.sub_diag.
Qed.

Lemma position_nul_spec : forall l, match position_nul l with
  | Some n => before_nul l = takeN n l /\ n < lenN l
  | None => before_nul l = l end.
Proof.
  induction l; cbn [position_nul before_nul]; auto. destruct (N.eqb_spec a 0). subst. rewrite lenN_cons. split; auto. lia.
  destruct (position_nul l).
  - destruct IHl as [E H]. rewrite lenN_cons. split; [|lia]. rewrite E. unfold takeN.
    replace (N.to_nat (n0 + 1)) with (S (N.to_nat n0)) by lia. reflexivity.
  - congruence.
Qed.
Lemma before_nul_nz : forall l, Forall (fun c => c <> 0) (before_nul l).
Proof. induction l; cbn [before_nul]; [constructor|]. destruct (N.eqb_spec a 0); constructor; auto. Qed.
Lemma before_nul_idem : forall l, before_nul (before_nul l) = before_nul l.
Proof. induction l; cbn [before_nul]; auto. destruct (N.eqb_spec a 0); cbn [before_nul]; auto. destruct (N.eqb_spec a 0); congruence. Qed.

(** The decoder computes "before the first NUL, absent when that is empty" - except on an empty slice. *)
Lemma decode_spec : forall l, l <> [] ->
  v1_decode_text l = match before_nul l with [] => None | t => Some t end.
Proof.
  intros. unfold v1_decode_text. pose proof (position_nul_spec l) as P. destruct (position_nul l).
  - destruct P as [E B]. rewrite E. destruct n as [|p].
    + reflexivity.
    + unfold latin1_decode. rewrite trim_id by (rewrite <- E; apply before_nul_nz).
      destruct (takeN (N.pos p) l) eqn:T; auto. apply (f_equal lenN) in T. rewrite lenN_takeN, lenN_nil in T. lia.
  - unfold latin1_decode. rewrite trim_id by (rewrite <- P; apply before_nul_nz). rewrite P. destruct l; congruence.
Qed.
Lemma before_nul_pad : forall s n, before_nul (s ++ repeat 0 n) = before_nul s.
Proof. induction s; intros; cbn [app before_nul]. destruct n; reflexivity. destruct (a =? 0); auto. now rewrite IHs. Qed.

Lemma resize_ok : forall v n, latin1_upto n v -> forall lossy,
  resize_string v n lossy = Ok (match v with None => repeat 0 (N.to_nat n) | Some s => takeN n s ++ repeat 0 (N.to_nat (n - lenN (takeN n s))) end).
Proof.
  intros. unfold resize_string. destruct v as [s|]; auto. cbn in H. unfold latin1_encode. rewrite latin1_ok by auto. reflexivity.
Qed.
Lemma resize_len : forall v n lossy b, resize_string v n lossy = Ok b -> lenN b = n.
Proof.
  intros. unfold resize_string in H. destruct v as [s|].
  - destruct (latin1_encode (takeN n s) lossy) as [b'|e|] eqn:E; inv H.
    assert (L : lenN b' <= n).
    { assert (forall i l b, latin1_encode_at i lossy l = Ok b -> lenN b = lenN l).
      { clear. intros i l; revert i; induction l; intros; cbn [latin1_encode_at] in H. inv H; auto.
        destruct (if a <=? 255 then _ else _); try discriminate. cbn [bind] in H.
        destruct (latin1_encode_at (i + 1) lossy l) eqn:E; try discriminate. cbn [bind] in H. inv H. rewrite !lenN_cons. f_equal. eauto. }
      apply H in E. rewrite lenN_takeN in E. lia. }
    rewrite lenN_app, lenN_repeat. lia.
  - inv H. rewrite lenN_repeat. lia.
Qed.
Lemma resize_never_panics : forall v n lossy, resize_string v n lossy <> Panic.
Proof.
  intros. unfold resize_string. destruct v as [s|]; try discriminate.
  assert (forall i l, latin1_encode_at i lossy l <> Panic).
  { intros i l; revert i; induction l; intros; cbn [latin1_encode_at]; try discriminate.
    destruct (a <=? 255); [|destruct lossy; [|discriminate]]; cbn [bind]; specialize (IHl (i + 1));
    destruct (latin1_encode_at (i + 1) _ l); try discriminate; congruence. }
  specialize (H 0 (takeN n s)). unfold latin1_encode. destruct (latin1_encode_at 0 lossy (takeN n s)); try discriminate; congruence.
Qed.
Lemma resize_lossy : forall v n, exists b, resize_string v n true = Ok b.
Proof. intros. unfold resize_string. destruct v as [s|]; eauto. unfold latin1_encode. rewrite latin1_lossy. eauto. Qed.
Lemma resize_strict : forall v n, (exists b, resize_string v n false = Ok b) <-> latin1_upto n v.
Proof.
  intros. split.
  - intros [b H]. unfold resize_string in H. destruct v as [s|]; cbn; auto.
    assert (D : forall c, {c <= 255} + {~ c <= 255}) by (intros c; destruct (c <=? 255) eqn:E; [left|right]; lia).
    destruct (Forall_dec (fun c => c <= 255) D (takeN n s)) as [F|F]; auto.
    destruct (latin1_err (takeN n s) 0 F) as (? & ? & ? & _ & _ & _ & E). unfold latin1_encode in H. rewrite E in H. discriminate.
  - intros. rewrite resize_ok by auto. eauto.
Qed.
Lemma decode_resize : forall v n b lossy, n <> 0 -> latin1_upto n v -> resize_string v n lossy = Ok b -> v1_decode_text b = fits n v.
Proof.
  intros. rewrite resize_ok in H1 by auto. inv H1.
  rewrite decode_spec.
  2:{ destruct v as [s|]. intros E. apply (f_equal lenN) in E. rewrite lenN_app, lenN_takeN, lenN_repeat, lenN_nil in E. lia.
      intros E. apply (f_equal lenN) in E. rewrite lenN_repeat, lenN_nil in E. lia. }
  unfold fits. destruct v as [s|].
  - now rewrite before_nul_pad.
  - destruct (N.to_nat n) eqn:E; [lia|]. reflexivity.
Qed.

Lemma year_roundtrip : forall y strict, opt_all (fun y => y < 65536) y ->
  try_parse_year (year_bytes y) strict = match y with Some y => Ok (Some (N.min y 9999)) | None => if strict then Err V1NonDigitYear else Ok None end.
Proof.
  intros. unfold try_parse_year, year_bytes. destruct y as [y|].
  - remember (N.min y 9999) as m eqn:Em. assert (m <= 9999) by lia. clear Em H. cbn [fold_year].
    unfold is_digit, U16_MAX.
    repeat match goal with |- context [if (?a <=? ?b) && (?c <=? ?d) then _ else _] => replace ((a <=? b) && (c <=? d)) with true by lia
      | |- context [if ?a <? ?b then _ else _] => replace (a <? b) with false by lia end.
    cbn [bind]. change (negb (0 + 1 + 1 + 1 + 1 =? 4)) with false. cbv iota.
    do 2 f_equal. lia.
  - destruct strict; reflexivity.
Qed.

(** The shape of an encoded tag. *)
Lemma encode_shape : forall t lossy b, v1_encode t lossy = Ok b ->
  exists ti ar al co, resize_string (v1_title t) 30 lossy = Ok ti /\ resize_string (v1_artist t) 30 lossy = Ok ar /\
    resize_string (v1_album t) 30 lossy = Ok al /\ resize_string (v1_comment t) 28 lossy = Ok co /\
    b = TAG ++ ti ++ ar ++ al ++ year_bytes (v1_year t) ++ co ++ [0]
       ++ [match v1_track t with Some n => n | None => 0 end] ++ [match v1_genre t with Some n => n | None => 255 end].
Proof.
  unfold v1_encode. intros.
  destruct (resize_string (v1_title t) 30 lossy) as [ti| |]; try discriminate.
  destruct (resize_string (v1_artist t) 30 lossy) as [ar| |]; try discriminate.
  destruct (resize_string (v1_album t) 30 lossy) as [al| |]; try discriminate.
  destruct (resize_string (v1_comment t) 28 lossy) as [co| |]; try discriminate.
  cbn [bind] in H. inv H. exists ti, ar, al, co. repeat split; auto.
Qed.
Lemma year_len : forall y, lenN (year_bytes y) = 4.
Proof. destruct y; reflexivity. Qed.
Lemma encode_len : forall t lossy b, v1_encode t lossy = Ok b -> lenN b = 128.
Proof.
  intros. apply encode_shape in H as (ti & ar & al & co & H1 & H2 & H3 & H4 & ->).
  apply resize_len in H1, H2, H3, H4. rewrite !lenN_app, H1, H2, H3, H4, year_len. reflexivity.
Qed.
Lemma encode_marker : forall t lossy b, v1_encode t lossy = Ok b -> takeN 3 b = TAG.
Proof. intros. apply encode_shape in H as (ti & ar & al & co & H1 & H2 & H3 & H4 & ->). reflexivity. Qed.

(** Parsing a block given by its fields. *)
Lemma parse_fields : forall ti ar al yr co z tr ge strict,
  lenN ti = 30 -> lenN ar = 30 -> lenN al = 30 -> lenN yr = 4 -> lenN co = 28 ->
  v1_parse (TAG ++ ti ++ ar ++ al ++ yr ++ co ++ [z] ++ [tr] ++ [ge]) strict =
  let? year := try_parse_year yr strict in
  Ok (mkV1 (v1_decode_text ti) (v1_decode_text ar) (v1_decode_text al) year
     (v1_decode_text (if (z =? 0) && negb (tr =? 0) then co ++ [z] else co ++ [z; tr]))
     (if (z =? 0) && negb (tr =? 0) then Some tr else None)
     (if ge <? 192 then Some ge else None)).
Proof.
  intros. unfold v1_parse.
  set (R := ti ++ ar ++ al ++ yr ++ co ++ [z] ++ [tr] ++ [ge]).
  assert (LR : lenN R = 125) by (unfold R; rewrite !lenN_app, H, H0, H1, H2, H3; reflexivity).
  rewrite (sub_head _ TAG R) by reflexivity. cbn [bind]. rewrite list_eqb_refl. cbn [negb].
  assert (E : @sub v1_error (TAG ++ R) 3 (lenN (TAG ++ R)) = Ok R).
  { rewrite <- (app_nil_r R) at 1. apply sub_app; auto. apply lenN_app. }
  rewrite E. cbn [bind]. unfold R.
  rewrite sub_head by lia. cbn [bind].
  rewrite (sub_app _ ti ar) by lia. cbn [bind].
  replace (ti ++ ar ++ al ++ yr ++ co ++ [z] ++ [tr] ++ [ge]) with ((ti ++ ar) ++ al ++ (yr ++ co ++ [z] ++ [tr] ++ [ge])) by now rewrite <- !app_assoc.
  rewrite sub_app by (rewrite !lenN_app; lia). cbn [bind].
  replace ((ti ++ ar) ++ al ++ (yr ++ co ++ [z] ++ [tr] ++ [ge])) with ((ti ++ ar ++ al) ++ yr ++ (co ++ [z] ++ [tr] ++ [ge])) by now rewrite <- !app_assoc.
  rewrite sub_app by (rewrite !lenN_app; lia). cbn [bind].
  destruct (try_parse_year yr strict); cbn [bind]; auto.
  replace ((ti ++ ar ++ al) ++ yr ++ (co ++ [z] ++ [tr] ++ [ge])) with ((ti ++ ar ++ al ++ yr ++ co) ++ z :: tr :: [ge]) by now rewrite <- !app_assoc.
  rewrite index_app by (rewrite !lenN_app; lia). cbn [bind].
  replace ((ti ++ ar ++ al ++ yr ++ co) ++ z :: tr :: [ge]) with ((ti ++ ar ++ al ++ yr ++ co ++ [z]) ++ tr :: [ge]) by now rewrite <- !app_assoc.
  rewrite index_app by (rewrite !lenN_app, lenN_cons, lenN_nil; lia). cbn [bind].
  destruct ((z =? 0) && negb (tr =? 0)).
  - replace ((ti ++ ar ++ al ++ yr ++ co ++ [z]) ++ tr :: [ge]) with ((ti ++ ar ++ al ++ yr) ++ (co ++ [z]) ++ tr :: [ge]) by now rewrite <- !app_assoc.
    rewrite sub_app by (rewrite !lenN_app, ?lenN_cons, ?lenN_nil; lia). cbn [bind].
    replace ((ti ++ ar ++ al ++ yr) ++ (co ++ [z]) ++ tr :: [ge]) with ((ti ++ ar ++ al ++ yr ++ co ++ [z; tr]) ++ ge :: []) by now rewrite <- !app_assoc.
    rewrite index_app by (rewrite !lenN_app, ?lenN_cons, ?lenN_nil; lia). reflexivity.
  - replace ((ti ++ ar ++ al ++ yr ++ co ++ [z]) ++ tr :: [ge]) with ((ti ++ ar ++ al ++ yr) ++ (co ++ [z; tr]) ++ [ge]) by now rewrite <- !app_assoc.
    rewrite sub_app by (rewrite !lenN_app, ?lenN_cons, ?lenN_nil; lia). cbn [bind].
    replace ((ti ++ ar ++ al ++ yr) ++ (co ++ [z; tr]) ++ [ge]) with ((ti ++ ar ++ al ++ yr ++ co ++ [z; tr]) ++ ge :: []) by now rewrite <- !app_assoc.
    rewrite index_app by (rewrite !lenN_app, ?lenN_cons, ?lenN_nil; lia). reflexivity.
Qed.

Lemma split_at : forall (l : bytes) n, n <= lenN l -> exists a b, l = a ++ b /\ lenN a = n /\ lenN b = lenN l - n.
Proof. intros. exists (takeN n l), (dropN n l). rewrite takeN_dropN, lenN_takeN, lenN_dropN. repeat split; lia. Qed.
Lemma len1 : forall (l : bytes), lenN l = 1 -> exists x, l = [x].
Proof. intros. destruct l as [|x [|y l]]; rewrite ?lenN_cons, ?lenN_nil in H; try lia. eauto. Qed.

Lemma block_fields : forall b : bytes, lenN b = 128 -> exists (m ti ar al yr co : bytes) (z tr ge : N),
  b = m ++ ti ++ ar ++ al ++ yr ++ co ++ [z] ++ [tr] ++ [ge] /\ lenN m = 3 /\
  lenN ti = 30 /\ lenN ar = 30 /\ lenN al = 30 /\ lenN yr = 4 /\ lenN co = 28.
Proof.
  intros.
  destruct (split_at b 3) as (m & b1 & -> & L1 & R1); [lia|]. rewrite lenN_app in *.
  destruct (split_at b1 30) as (ti & b2 & -> & L2 & R2); [lia|]. rewrite lenN_app in *.
  destruct (split_at b2 30) as (ar & b3 & -> & L3 & R3); [lia|]. rewrite lenN_app in *.
  destruct (split_at b3 30) as (al & b4 & -> & L4 & R4); [lia|]. rewrite lenN_app in *.
  destruct (split_at b4 4) as (yr & b5 & -> & L5 & R5); [lia|]. rewrite lenN_app in *.
  destruct (split_at b5 28) as (co & b6 & -> & L6 & R6); [lia|]. rewrite lenN_app in *.
  destruct (split_at b6 1) as (z & b7 & -> & L7 & R7); [lia|]. rewrite lenN_app in *.
  destruct (split_at b7 1) as (tr & ge & -> & L8 & R8); [lia|]. rewrite lenN_app in *.
  destruct (len1 z L7) as [z' ->]. destruct (len1 tr L8) as [tr' ->]. destruct (len1 ge) as [ge' ->]; [lia|].
  exists m, ti, ar, al, yr, co, z', tr', ge'. auto 10.
Qed.

Lemma roundtrip : forall t lossy strict, v1_latin1 t -> v1_ranges t ->
  exists b, v1_encode t lossy = Ok b /\
    v1_parse b strict = if strict && is_none (v1_year t) then Err V1NonDigitYear else Ok (norm t).
Proof.
  intros t lossy strict (H1 & H2 & H3 & H4) (R1 & R2 & R3).
  assert (exists b, v1_encode t lossy = Ok b) as [b E].
  { unfold v1_encode. rewrite !resize_ok by auto. cbn [bind]. eauto. }
  exists b. split; auto. apply encode_shape in E as (ti & ar & al & co & E1 & E2 & E3 & E4 & ->).
  pose proof (resize_len _ _ _ _ E1). pose proof (resize_len _ _ _ _ E2). pose proof (resize_len _ _ _ _ E3). pose proof (resize_len _ _ _ _ E4).
  rewrite parse_fields; auto using year_len. rewrite year_roundtrip by auto.
  assert (C : forall tr, v1_decode_text (if (0 =? 0) && negb (tr =? 0) then co ++ [0] else co ++ [0; tr]) = fits 28 (v1_comment t)).
  { intros. rewrite decode_spec by (destruct (_ && _); destruct co; discriminate).
    assert (before_nul co = before_nul (co ++ [0]) /\ before_nul co = before_nul (co ++ [0; tr])) as [B1 B2].
    { clear. split; induction co; cbn [app before_nul]; auto; destruct (a =? 0); auto; f_equal; auto. }
    assert (D : v1_decode_text co = match before_nul co with [] => None | t => Some t end) by (apply decode_spec; intros ->; discriminate).
    rewrite <- (decode_resize (v1_comment t) 28 co lossy) by (auto; lia). rewrite D.
    destruct (_ && _); [rewrite <- B1|rewrite <- B2]; auto. }
  rewrite C. unfold norm.
  assert (T30 : 30 <> 0) by discriminate.
  rewrite (decode_resize _ _ _ _ T30 H1 E1), (decode_resize _ _ _ _ T30 H2 E2), (decode_resize _ _ _ _ T30 H3 E3).
  change ((0 =? 0)) with true. cbn [andb].
  assert (T : (if negb ((match v1_track t with Some n => n | None => 0 end) =? 0) then Some (match v1_track t with Some n => n | None => 0 end) else None)
     = match v1_track t with Some 0 => None | o => o end).
  { destruct (v1_track t) as [[|]|]; reflexivity. }
  assert (G : (if (match v1_genre t with Some n => n | None => 255 end) <? 192 then Some (match v1_genre t with Some n => n | None => 255 end) else None)
     = match v1_genre t with Some g => if g <? 192 then Some g else None | None => None end).
  { destruct (v1_genre t); reflexivity. }
  rewrite T, G. destruct (v1_year t); cbn [bind is_none]. now rewrite andb_false_r. destruct strict; reflexivity.
Qed.

(** *** Reading arbitrary blocks *)
Lemma fold_year_nopanic : forall l n y, lenN l <= 4 -> (y + 1) * 10 ^ lenN l <= 10000 -> exists r, fold_year l n y = Ok r /\ snd r < 10000.
Proof.
  induction l; intros; cbn [fold_year].
  - rewrite lenN_nil in H0. change (10 ^ 0) with 1 in H0. eexists. split; eauto. cbn. lia.
  - rewrite lenN_cons in *. replace (1 + lenN l) with (N.succ (lenN l)) in H0 by lia. rewrite N.pow_succ_r' in H0.
    assert (1 <= 10 ^ lenN l) by (assert (10 ^ lenN l <> 0) by (apply N.pow_nonzero; discriminate); lia).
    destruct (is_digit a) eqn:E.
    + unfold is_digit in E. assert ((y * 10 + (a - 48) + 1) * 10 ^ lenN l <= 10000) by nia.
      assert (y * 10 + (a - 48) < 10000) by nia.
      destruct (N.ltb_spec U16_MAX (y * 10 + (a - 48))); [unfold U16_MAX in *; lia|]. apply IHl; auto; lia.
    + eexists. split; eauto. cbn. nia.
Qed.
Lemma try_parse_year_spec : forall l strict, lenN l = 4 ->
  (exists y, try_parse_year l strict = Ok (Some y) /\ y <= 9999) \/
  try_parse_year l strict = if strict then Err V1NonDigitYear else Ok None.
Proof.
  intros. unfold try_parse_year. destruct (fold_year_nopanic l 0 0) as ([n y] & -> & B); [lia|rewrite H; cbn; lia|].
  cbn [bind]. destruct (negb (n =? 4)); auto. left. exists y. cbn in B. split; auto. lia.
Qed.

(** Every text field of a parsed tag is a non-empty NUL-free Latin-1 string of bounded length. *)
Definition field_ok (n : N) (o : option str) : Prop :=
  opt_all (fun s => s <> [] /\ lenN s <= n /\ Forall (fun c => c <> 0) s /\ Forall (fun c => c <= 255) s) o.
Lemma decode_field_ok : forall l, l <> [] -> bytes_ok l -> field_ok (lenN l) (v1_decode_text l).
Proof.
  intros. rewrite decode_spec by auto. unfold field_ok. pose proof (before_nul_nz l).
  assert (Forall (fun c => c <= 255) (before_nul l) /\ lenN (before_nul l) <= lenN l) as [A B].
  { clear -H0. induction H0; cbn [before_nul]; [split; [constructor|lia]|]. unfold byte_ok in H.
    destruct (x =? 0); rewrite ?lenN_cons, ?lenN_nil; split; try constructor; try lia; tauto || lia. }
  destruct (before_nul l) eqn:E; cbn; auto. repeat split; auto. discriminate.
Qed.
Lemma field_fits : forall n m o, n <= m -> field_ok n o -> fits m o = o.
Proof.
  intros. destruct o as [s|]; auto. cbn in *. destruct H0 as (H1 & H2 & H3 & _). rewrite takeN_all by lia.
  assert (before_nul s = s). { clear -H3. induction H3; cbn [before_nul]; auto. destruct (N.eqb_spec x 0); congruence. }
  rewrite H0. destruct s; congruence.
Qed.
Lemma field_latin1 : forall n m o, field_ok n o -> latin1_upto m o.
Proof. intros. destruct o; cbn in *; auto. apply Forall_takeN. tauto. Qed.

Lemma parse_spec : forall b strict t, lenN b = 128 -> bytes_ok b -> v1_parse b strict = Ok t ->
  field_ok 30 (v1_title t) /\ field_ok 30 (v1_artist t) /\ field_ok 30 (v1_album t) /\ field_ok 30 (v1_comment t) /\
  opt_all (fun y => y <= 9999) (v1_year t) /\ opt_all (fun n => 0 < n < 256) (v1_track t) /\ opt_all (fun n => n < 192) (v1_genre t).
Proof.
  intros b strict t L Hb H. destruct (block_fields b L) as (m & ti & ar & al & yr & co & z & tr & ge & -> & Lm & L1 & L2 & L3 & L4 & L5).
  assert (m = TAG).
  { unfold v1_parse in H. rewrite sub_head in H by lia. cbn [bind] in H.
    destruct (list_eqb m TAG) eqn:E; try discriminate. now apply list_eqb_eq. }
  subst m. rewrite parse_fields in H by auto.
  rewrite !bytes_ok_app in Hb. destruct Hb as (_ & B1 & B2 & B3 & B4 & B5 & B6 & B7 & B8).
  inversion B6; subst. inversion B7; subst. inversion B8; subst.
  assert (Y : forall y, try_parse_year yr strict = Ok y -> opt_all (fun y => y <= 9999) y).
  { intros. destruct (try_parse_year_spec yr strict L4) as [(y0 & E & By)|E]; rewrite E in H0; [inv H0; auto|]. destruct strict; inv H0. exact I. }
  destruct (try_parse_year yr strict) as [y| |]; try discriminate. cbn [bind] in H. inv H. cbn [v1_title v1_artist v1_album v1_comment v1_year v1_track v1_genre].
  unfold byte_ok in *.
  repeat split.
  - rewrite <- L1. apply decode_field_ok; auto. intros ->; discriminate.
  - rewrite <- L2. apply decode_field_ok; auto. intros ->; discriminate.
  - rewrite <- L3. apply decode_field_ok; auto. intros ->; discriminate.
  - destruct (_ && _).
    + assert (field_ok 29 (v1_decode_text (co ++ [z]))).
      { replace 29 with (lenN (co ++ [z])) by (rewrite lenN_app, L5; reflexivity). apply decode_field_ok. destruct co; discriminate. apply bytes_ok_app; auto. }
      destruct (v1_decode_text (co ++ [z])); cbn in *; auto. intuition lia.
    + replace 30 with (lenN (co ++ [z; tr])) by (rewrite lenN_app, L5; reflexivity). apply decode_field_ok. destruct co; discriminate.
      apply bytes_ok_app; auto.
  - auto.
  - destruct ((z =? 0) && negb (tr =? 0)) eqn:E; cbn; auto. lia.
  - destruct (N.ltb_spec ge 192); cbn; auto.
Qed.
Lemma parse_total : forall b strict, lenN b = 128 -> v1_parse b strict <> Panic.
Proof.
  intros b strict L. destruct (block_fields b L) as (m & ti & ar & al & yr & co & z & tr & ge & -> & Lm & L1 & L2 & L3 & L4 & L5).
  destruct (list_eqb m TAG) eqn:E.
  - apply list_eqb_eq in E. subst. rewrite parse_fields by auto.
    destruct (try_parse_year_spec yr strict L4) as [(y0 & E0 & By)|E]; rewrite ?E, ?E0. discriminate. destruct strict; discriminate.
  - unfold v1_parse. rewrite sub_head by lia. cbn [bind]. rewrite E. discriminate.
Qed.
Lemma resave : forall b strict lossy t, lenN b = 128 -> bytes_ok b -> v1_parse b strict = Ok t ->
  opt_all (fun s => lenN s <= 28) (v1_comment t) ->
  exists b', v1_encode t lossy = Ok b' /\ v1_parse b' false = Ok t.
Proof.
  intros b strict lossy t L Hb H Hc. destruct (parse_spec b strict t L Hb H) as (F1 & F2 & F3 & F4 & F5 & F6 & F7).
  assert (F4' : field_ok 28 (v1_comment t)). { destruct (v1_comment t); cbn in *; auto. tauto. }
  destruct (roundtrip t lossy false) as (b' & E & P).
  - repeat split; eapply field_latin1; eauto.
  - repeat split. destruct (v1_year t); cbn in *; auto; lia. destruct (v1_track t); cbn in *; auto; lia. destruct (v1_genre t); cbn in *; auto; lia.
  - exists b'. split; auto. rewrite P. cbn [andb]. f_equal. unfold norm.
    rewrite (field_fits 30 30), (field_fits 30 30), (field_fits 30 30), (field_fits 28 28) by (auto; lia).
    destruct t as [ti ar al y c tr g]; cbn in *. f_equal.
    + destruct y; cbn in *; auto. f_equal. lia.
    + destruct tr as [[|]|]; cbn in *; auto. lia.
    + destruct g; cbn in *; auto. destruct (N.ltb_spec n 192); auto. lia.
Qed.

(** *** Saving *)
Lemma shape_exists : forall data, exists audio found, file_shape data audio found.
Proof.
  intros. destruct (N.ltb_spec (lenN data) 128).
  - exists data, false. constructor. intros. subst. rewrite lenN_app in H. lia.
  - destruct (list_eqb (takeN 3 (dropN (lenN data - 128) data)) TAG) eqn:E.
    + exists (takeN (lenN data - 128) data), true. rewrite <- (takeN_dropN _ (lenN data - 128) data) at 1. constructor.
      rewrite lenN_dropN. lia. now apply list_eqb_eq.
    + exists data, false. constructor. intros a block -> Hb. apply list_eqb_neq in E. rewrite lenN_app in E.
      rewrite dropN_app in E by lia. exact E.
Qed.
Lemma find_spec : forall data audio found, file_shape data audio found -> find_id3v1 data = (lenN audio, found).
Proof.
  intros. destruct H; unfold find_id3v1.
  - rewrite lenN_app, H. destruct (N.ltb_spec (lenN audio + 128) 128); [lia|].
    replace (lenN audio + 128 - 128) with (lenN audio) by lia. rewrite dropN_app by auto. rewrite H0. reflexivity.
  - destruct (N.ltb_spec (lenN audio) 128); auto.
    destruct (list_eqb (takeN 3 (dropN (lenN audio - 128) audio)) TAG) eqn:E; auto.
    apply list_eqb_eq in E. exfalso. apply (H (takeN (lenN audio - 128) audio) (dropN (lenN audio - 128) audio)); auto.
    now rewrite takeN_dropN. rewrite lenN_dropN. lia.
Qed.
Lemma write_at_shape : forall data audio found buf, file_shape data audio found -> 
  write_at (lenN audio) buf data = audio ++ buf ++ dropN (lenN audio + lenN buf) data.
Proof.
  intros. unfold write_at. assert (exists r, data = audio ++ r) as [r ->] by (destruct H; eauto using app_nil_r).
  rewrite takeN_app by auto. rewrite lenN_app. replace (lenN audio - (lenN audio + lenN r)) with 0 by lia. reflexivity.
Qed.
Lemma shape_prefix : forall data audio found, file_shape data audio found -> exists r, data = audio ++ r /\ lenN r <= 128.
Proof. intros. destruct H. exists block; split; auto; lia. exists []. rewrite app_nil_r. split; auto. rewrite lenN_nil. lia. Qed.

Lemma shape_len : forall data audio found, file_shape data audio found -> lenN data = lenN audio + (if found then 128 else 0).
Proof. intros. destruct H; rewrite ?lenN_app; lia. Qed.
Lemma save_spec : forall data audio found t lossy, file_shape data audio found ->
  match write_id3v1 data t lossy with
  | Ok log => apply_log data log = (if v1_is_empty t && found then audio else audio ++ match v1_encode t lossy with Ok b => b | _ => [] end)
     /\ (v1_is_empty t && found = false -> exists b, v1_encode t lossy = Ok b)
     /\ (forall d, crash data log d -> exists tail, d = audio ++ tail)
  | Err e => v1_encode t lossy = Err e
  | Panic => False
  end.
Proof.
  intros data audio found t lossy H. unfold write_id3v1. rewrite (find_spec _ _ _ H).
  destruct (v1_is_empty t && found) eqn:E0.
  - apply andb_prop in E0 as [_ ->].
    assert (A : apply_op data (OpTrunc (lenN data - 128)) = audio).
    { cbn [apply_op]. unfold set_len. rewrite (shape_len _ _ _ H). replace (lenN audio + 128 - 128) with (lenN audio) by lia.
      destruct (shape_prefix _ _ _ H) as (r & -> & _). rewrite takeN_app by auto.
      replace (lenN audio - (lenN audio + 128)) with 0 by lia. apply app_nil_r. }
    split; [exact A|]. split; [discriminate|].
    intros d C. destruct C as [pre post Hl|pre o o' post Hl Ht].
    + destruct pre as [|x pre]. destruct (shape_prefix _ _ _ H) as (r & -> & _). cbn. eauto.
      injection Hl as Hx Hl. subst x. symmetry in Hl. apply app_eq_nil in Hl as [-> ->]. cbn [apply_log fold_left]. rewrite A. exists []. now rewrite app_nil_r.
    + destruct pre as [|x pre]; inv Hl. inv Ht. symmetry in H2. apply app_eq_nil in H2 as [_ H2]. discriminate.
  - assert (En : v1_encode t lossy <> Panic).
    { unfold v1_encode. pose proof (resize_never_panics (v1_title t) 30 lossy). pose proof (resize_never_panics (v1_artist t) 30 lossy).
      pose proof (resize_never_panics (v1_album t) 30 lossy). pose proof (resize_never_panics (v1_comment t) 28 lossy).
      destruct (resize_string (v1_title t) 30 lossy); cbn [bind]; try discriminate; try congruence.
      destruct (resize_string (v1_artist t) 30 lossy); cbn [bind]; try discriminate; try congruence.
      destruct (resize_string (v1_album t) 30 lossy); cbn [bind]; try discriminate; try congruence.
      destruct (resize_string (v1_comment t) 28 lossy); cbn [bind]; try discriminate; try congruence. }
    destruct (v1_encode t lossy) as [b|e|] eqn:E; cbn [bind]; auto.
    assert (L : lenN b = 128) by (eapply encode_len; eauto).
    split; [|split; eauto].
    + cbn [apply_log fold_left apply_op]. rewrite (write_at_shape _ _ _ _ H). f_equal.
      rewrite dropN_all; [apply app_nil_r|]. destruct (shape_prefix _ _ _ H) as (r & -> & Hr). rewrite lenN_app. lia.
    + intros d C. destruct C as [pre post Hl|pre o o' post Hl Ht].
      * destruct pre as [|x pre]. destruct (shape_prefix _ _ _ H) as (r & -> & _). cbn. eauto.
        inv Hl. symmetry in H2. apply app_eq_nil in H2 as [-> ->]. cbn [apply_log fold_left apply_op]. rewrite (write_at_shape _ _ _ _ H). eauto.
      * destruct pre as [|x pre]; inv Hl; [|symmetry in H2; apply app_eq_nil in H2 as [_ H2]; discriminate].
        inv Ht. cbn [apply_log fold_left apply_op]. rewrite (write_at_shape _ _ _ _ H). eauto.
Qed.

(** *** Accessors *)
Lemma genre_index_none : forall gs g i, genre_index i gs g = None -> forall x, In x gs -> lower x <> lower g.
Proof.
  induction gs; intros; cbn in *; [contradiction|]. destruct (eq_ignore_case a g) eqn:E; [discriminate|].
  destruct H0; eauto. subst. intro. apply eq_ignore_case_iff in H0. congruence.
Qed.
Lemma genre_index_some : forall gs g i k, genre_index i gs g = Some k -> i <= k < i + lenN gs /\ exists x, nth_error gs (N.to_nat (k - i)) = Some x /\ lower x = lower g.
Proof.
  induction gs; intros; cbn [genre_index] in H; [discriminate|]. rewrite lenN_cons. destruct (eq_ignore_case a g) eqn:E.
  - inv H. split; [lia|]. exists a. rewrite N.sub_diag. split; auto. now apply eq_ignore_case_iff.
  - apply IHgs in H as (B & x & Hx & L). split; [lia|]. exists x. split; auto.
    replace (N.to_nat (k - i)) with (S (N.to_nat (k - (i + 1)))) by lia. exact Hx.
Qed.
Lemma resize_comment_spec : forall v len, exists rest, v = resize_comment len v ++ rest /\
  (len <= 28 -> len + lenN (utf8_enc (resize_comment len v)) <= 28) /\
  (forall c r, rest = c :: r -> 28 < len + lenN (utf8_enc (resize_comment len v ++ [c]))).
Proof.
  induction v; intros; cbn [resize_comment].
  - exists []. split; auto. split. cbn. rewrite lenN_nil. lia. discriminate.
  - destruct (N.ltb_spec 28 (len + lenN (utf8_char a))).
    + exists (a :: v). split; auto. split. cbn. rewrite lenN_nil; lia. intros c r E; inv E. cbn [app utf8_enc]. now rewrite app_nil_r.
    + destruct (IHv (len + lenN (utf8_char a))) as (rest & E & B & C). exists rest. split. cbn [app]. congruence. split.
      * intros. cbn [utf8_enc]. rewrite lenN_app. specialize (B ltac:(lia)). lia.
      * intros c r Er. specialize (C c r Er). cbn [app utf8_enc]. rewrite lenN_app. lia.
Qed.
