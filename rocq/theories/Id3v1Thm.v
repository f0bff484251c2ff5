(** Property theorems for ID3v1 (C14-C17, C45-C47). *)
From Verif Require Import StrLemmas TextModel TextSpec TextProof FileModel Id3v1Model Id3v1Spec Id3v1Proof.

Definition sample : id3v1 :=
  mkV1 (Some $"Foo title") (Some $"Bar artist") None (Some 1984) (Some $"Qux comment") (Some 1) (Some 32).

(** C14 *)
Theorem C14_block : forall t lossy,
  match v1_encode t lossy with
  | Ok b => lenN b = 128 /\ takeN 3 b = $"TAG" /\ nth_error b 125 = Some 0 /\ (lossy = true \/ v1_latin1 t)
  | Err _ => lossy = false /\ ~ v1_latin1 t
  | Panic => False
  end.
Proof.
  intros. destruct (v1_encode t lossy) as [b|e|] eqn:E.
  - repeat split.
    + eapply encode_len; eauto.
    + eapply encode_marker; eauto.
    + apply encode_shape in E as (ti & ar & al & co & E1 & E2 & E3 & E4 & ->).
      apply resize_len in E1, E2, E3, E4.
      assert (L : length (TAG ++ ti ++ ar ++ al ++ year_bytes (v1_year t) ++ co) = 125%nat).
      { apply Nnat.Nat2N.inj. fold (lenN (TAG ++ ti ++ ar ++ al ++ year_bytes (v1_year t) ++ co)).
        rewrite !lenN_app, E1, E2, E3, E4, year_len. reflexivity. }
      rewrite <- L. rewrite !app_assoc. rewrite <- !app_assoc.
      replace (TAG ++ ti ++ ar ++ al ++ year_bytes (v1_year t) ++ co ++ [0] ++ [match v1_track t with Some n => n | None => 0 end] ++ [match v1_genre t with Some n => n | None => 255 end])
        with ((TAG ++ ti ++ ar ++ al ++ year_bytes (v1_year t) ++ co) ++ [0] ++ [match v1_track t with Some n => n | None => 0 end] ++ [match v1_genre t with Some n => n | None => 255 end])
        by now rewrite <- !app_assoc.
      rewrite nth_error_app2 by lia. now rewrite Nat.sub_diag.
    + destruct lossy; auto. right. apply encode_shape in E as (ti & ar & al & co & E1 & E2 & E3 & E4 & _).
      repeat split; apply resize_strict; eauto.
  - destruct lossy.
    + exfalso. unfold v1_encode in E.
      destruct (resize_lossy (v1_title t) 30) as [? R1]. destruct (resize_lossy (v1_artist t) 30) as [? R2].
      destruct (resize_lossy (v1_album t) 30) as [? R3]. destruct (resize_lossy (v1_comment t) 28) as [? R4].
      rewrite R1, R2, R3, R4 in E. discriminate.
    + split; auto. intros (H1 & H2 & H3 & H4). unfold v1_encode in E. rewrite !resize_ok in E by auto. discriminate.
  - pose proof (save_spec [] [] false t lossy) as S. unfold write_id3v1 in S.
    assert (file_shape [] [] false). { constructor. intros. symmetry in H. apply app_eq_nil in H as [_ ->]. discriminate. }
    specialize (S H). rewrite (find_spec _ _ _ H), andb_false_r, E in S. exact S.
Qed.
Print Assumptions C14_block.
Example C14_ex : v1_latin1 sample /\ ~ v1_latin1 (mkV1 (Some [0x20AC]) None None None None None None).
Proof.
  split.
  - repeat split; cbn; auto; repeat constructor; discriminate.
  - intros (H & _). cbn in H. inversion H; subst. vm_compute in H2. apply H2. reflexivity.
Qed.

(** C15 (in every parsing mode when a year is set; otherwise when not strict) *)
Theorem C15_roundtrip : forall t lossy strict, v1_latin1 t -> v1_ranges t ->
  (strict = false \/ v1_year t <> None) ->
  exists b, v1_encode t lossy = Ok b /\ v1_parse b strict = Ok (norm t).
Proof.
  intros. destruct (roundtrip t lossy strict H H0) as (b & E & P). exists b. split; auto. rewrite P.
  destruct H1. subst; auto. destruct (v1_year t); [|congruence]. cbn. now rewrite andb_false_r.
Qed.
Print Assumptions C15_roundtrip.
Example C15_ex : v1_latin1 sample /\ v1_ranges sample /\ norm sample = sample /\
  norm (mkV1 (Some (repeat 65 40)) None None (Some 12345) (Some [66; 0; 67]) (Some 0) (Some 200))
  = mkV1 (Some (repeat 65 30)) None None (Some 9999) (Some [66]) None None.
Proof. split. exact (proj1 C14_ex). vm_compute. auto. Qed.

(** C45: a tag without a year is written in a form the strict parser rejects. *)
Theorem C45_strict_mode_reads_own_output_refuted : exists t b,
  v1_latin1 t /\ v1_ranges t /\ v1_encode t false = Ok b /\ v1_parse b true = Err V1NonDigitYear.
Proof.
  exists (mkV1 (Some [65]) None None None None None None). eexists. split; [repeat split; cbn; auto; repeat constructor; discriminate|].
  split; [repeat split|]. split; [vm_compute; reflexivity|vm_compute; reflexivity].
Qed.
Print Assumptions C45_strict_mode_reads_own_output_refuted.
Theorem C45_strict_mode_reads_own_output_partial : forall t lossy y, v1_latin1 t -> v1_ranges t -> v1_year t = Some y ->
  exists b, v1_encode t lossy = Ok b /\ v1_parse b true = Ok (norm t).
Proof. intros. apply C15_roundtrip; auto. right. congruence. Qed.
Print Assumptions C45_strict_mode_reads_own_output_partial.

(** C16 *)
Theorem C16_resave_refuted : exists b t b' t', lenN b = 128 /\ bytes_ok b /\ v1_parse b false = Ok t /\
  v1_encode t false = Ok b' /\ v1_parse b' false = Ok t' /\ t' <> t.
Proof.
  exists ($"TAG" ++ repeat 0 94 ++ repeat 65 30 ++ [255])%list. eexists _, _, _.
  split; [reflexivity|]. split; [apply Forall_forall; intros x Hx; repeat (destruct Hx as [<-|Hx]; [reflexivity|]); destruct Hx|].
  split; [vm_compute; reflexivity|]. split; [vm_compute; reflexivity|]. split; [vm_compute; reflexivity|]. discriminate.
Qed.
Print Assumptions C16_resave_refuted.
Theorem C16_resave_partial : forall b strict lossy t, lenN b = 128 -> bytes_ok b -> v1_parse b strict = Ok t ->
  (forall c, v1_comment t = Some c -> lenN c <= 28) ->
  exists b', v1_encode t lossy = Ok b' /\ v1_parse b' false = Ok t.
Proof. intros. eapply resave; eauto. destruct (v1_comment t); cbn; auto. Qed.
Print Assumptions C16_resave_partial.
Example C16_ex : let b := ($"TAG" ++ repeat 66 30 ++ repeat 0 60 ++ $"1999" ++ repeat 65 28 ++ [0; 7; 3])%list in
  lenN b = 128 /\ v1_parse b true = Ok (mkV1 (Some (repeat 66 30)) None None (Some 1999) (Some (repeat 65 28)) (Some 7) (Some 3)).
Proof. vm_compute. auto. Qed.

(** C17 *)
Theorem C17_save : forall data audio found t lossy, file_shape data audio found ->
  match write_id3v1 data t lossy with
  | Ok log =>
      (v1_is_empty t = false -> exists b, v1_encode t lossy = Ok b /\ apply_log data log = audio ++ b) /\
      (v1_is_empty t = true -> found = true -> apply_log data log = audio) /\
      (forall d, crash data log d -> exists tail, d = audio ++ tail)
  | Err e => v1_encode t lossy = Err e      (* nothing was written *)
  | Panic => False
  end.
Proof.
  intros. pose proof (save_spec data audio found t lossy H) as S. destruct (write_id3v1 data t lossy); auto.
  destruct S as (S1 & S2 & S3). repeat split; auto.
  - intros E. rewrite E in *. cbn [andb] in *. destruct (S2 eq_refl) as [b Eb]. exists b. rewrite Eb in S1. auto.
  - intros E F. rewrite E, F in *. auto.
Qed.
Print Assumptions C17_save.
Theorem C17_shape_total : forall data, exists audio found, file_shape data audio found.
Proof. exact shape_exists. Qed.
Print Assumptions C17_shape_total.
Theorem C17_empty_tag_unchanged_refuted : exists data audio log,
  file_shape data audio false /\ write_id3v1 data v1_empty false = Ok log /\ apply_log data log <> data.
Proof.
  exists [1; 2; 3], [1; 2; 3]. eexists. split.
  - constructor. intros. apply (f_equal lenN) in H. rewrite lenN_app, H0 in H. change (lenN [1; 2; 3]) with 3 in H. lia.
  - split; [vm_compute; reflexivity|]. vm_compute. discriminate.
Qed.
Print Assumptions C17_empty_tag_unchanged_refuted.
Example C17_ex : match write_id3v1 [9; 9] sample false with
  | Ok log => lenN (apply_log [9; 9] log) = 130 /\
      match write_id3v1 (apply_log [9; 9] log) v1_empty false with
      | Ok log2 => apply_log (apply_log [9; 9] log) log2 = [9; 9] | _ => False end
  | _ => False end.
Proof. vm_compute. auto. Qed.

(** C46: accessors. *)
Theorem C46_set_track_refuted : exists n t, n <= U32_MAX /\ v1_track (v1_set_track n t) <> Some n.
Proof. exists 300, v1_empty. split; [discriminate|vm_compute; discriminate]. Qed.
Print Assumptions C46_set_track_refuted.
Theorem C46_accessors_partial : forall t,
  (forall n, n <= 255 -> v1_track (v1_set_track n t) = Some n) /\
  (forall v, exists c rest, v1_comment (v1_set_comment v t) = Some c /\ v = c ++ rest /\ lenN (utf8_enc c) <= 28 /\
      (forall x r, rest = x :: r -> 28 < lenN (utf8_enc (c ++ [x])))) /\
  (forall g, (exists x, In x GENRES /\ lower x = lower g) ->
      exists x, v1_genre_str (v1_set_genre g t) = Some x /\ lower x = lower g) /\
  (forall g, (forall x, In x GENRES -> lower x <> lower g) -> v1_set_genre g t = t).
Proof.
  intros. repeat split.
  - intros. cbn. f_equal. lia.
  - intros. destruct (resize_comment_spec v 0) as (rest & E & B & C). exists (resize_comment 0 v), rest. split; [reflexivity|]. split; [exact E|]. split.
    + assert (B' : 0 <= 28) by discriminate. specialize (B B'). lia.
    + intros. specialize (C x r H). lia.
  - intros g (x & Hx & L). unfold v1_set_genre. destruct (genre_index 0 GENRES g) as [k|] eqn:E.
    + apply genre_index_some in E as (B & y & Hy & Ly). unfold v1_genre_str. cbn [v1_genre].
      change (lenN GENRES) with 192 in B. rewrite N.mod_small by lia. rewrite N.sub_0_r in Hy. eauto.
    + exfalso. eapply genre_index_none; eauto.
  - intros. unfold v1_set_genre. destruct (genre_index 0 GENRES g) eqn:E; auto.
    apply genre_index_some in E as (B & y & Hy & Ly). apply nth_error_In in Hy. apply H in Hy. congruence.
Qed.
Print Assumptions C46_accessors_partial.
Example C46_ex : v1_genre_str (v1_set_genre $"blUES" sample) = Some $"Blues" /\ v1_set_genre $"nope" sample = sample.
Proof. vm_compute. auto. Qed.

(** C47: parsing any block terminates without panic, and the fields obey the format's limits. *)
Theorem C47_parse_total : forall b strict, lenN b = 128 -> bytes_ok b ->
  match v1_parse b strict with
  | Panic => False
  | Err V1FakeTag => takeN 3 b <> $"TAG"
  | Err _ => strict = true
  | Ok t => takeN 3 b = $"TAG" /\
      (forall s, In (Some s) [v1_title t; v1_artist t; v1_album t; v1_comment t] ->
         s <> [] /\ lenN s <= 30 /\ ~ In 0 s) /\
      (forall y, v1_year t = Some y -> y <= 9999) /\ (forall n, v1_track t = Some n -> 0 < n < 256) /\
      (forall g, v1_genre t = Some g -> g < 192)
  end.
Proof.
  intros. pose proof (parse_total b strict H) as T.
  destruct (block_fields b H) as (m & ti & ar & al & yr & co & z & tr & ge & E & Lm & L1 & L2 & L3 & L4 & L5).
  assert (M : takeN 3 b = m) by (rewrite E; now apply takeN_app).
  destruct (list_eqb m TAG) eqn:Em.
  - apply list_eqb_eq in Em. destruct (v1_parse b strict) as [t|e|] eqn:P; [|..|congruence].
    + destruct (parse_spec b strict t H H0 P) as (F1 & F2 & F3 & F4 & F5 & F6 & F7). split. now rewrite M.
      split; [|repeat split].
      * intros s Hs.
        assert (X : field_ok 30 (Some s)) by (destruct Hs as [X|[X|[X|[X|[]]]]]; rewrite <- X; auto).
        cbn in X. destruct X as (X1 & X2 & X3 & X4). repeat split; auto. intros I. rewrite Forall_forall in X3. now apply (X3 0).
      * intros y Y. rewrite Y in F5. exact F5.
      * rewrite H1 in F6. apply F6.
      * rewrite H1 in F6. apply F6.
      * intros y Y. rewrite Y in F7. exact F7.
    + subst m. rewrite E, Em, parse_fields in P by auto.
      destruct (try_parse_year_spec yr strict L4) as [(y0 & E0 & By)|E0]; rewrite E0 in P; [discriminate|].
      destruct strict; [|discriminate]. inversion P. reflexivity.
  - assert (P : v1_parse b strict = Err V1FakeTag).
    { rewrite E. unfold v1_parse. rewrite sub_head by lia. cbn [bind]. now rewrite Em. }
    rewrite P. rewrite M. now apply list_eqb_neq.
Qed.
Print Assumptions C47_parse_total.
