(** ID3v2.2 frames and tags are read. *)
From Verif Require Import BaseLemmas TextProof TextThm PictureThm.
From Verif Require Import FrameProof1 FrameProof2 FrameListSpec FrameListProof FrameOldSpec.

Lemma enc_u8_back : forall e, enc_of_u8 (enc_to_u8 e) = Some e. Proof. intros []; reflexivity. Qed.
Lemma stored_byte : forall e, enc_to_u8 (stored true e) <= 1. Proof. intros []; cbn; lia. Qed.
Lemma verify22 : forall b, b <= 1 -> verify_encoding b V2 = verify_encoding b V3.
Proof. intros b H. unfold verify_encoding. cbn [is_v2 andb]. destruct (N.eqb_spec b 0); auto. destruct (N.eqb_spec b 1); auto. lia. Qed.

(** The kinds of frames whose content begins with an encoding that is verified. *)
Definition encoded (k : kind) : bool :=
  match k with KComment | KUnsync | KText | KUserText | KUserUrl | KPairs => true | _ => false end.
Lemma first_byte : forall w f b, w_v23 w = true -> encoded (kind_of f) = true -> leaf_bytes w f = Ok b -> exists x r, b = x :: r /\ x <= 1.
Proof.
  intros w f b W K E.
  destruct f; try discriminate K; cbn [leaf_bytes] in E; unfold lang_bytes, text_bytes, user_bytes, key_value_bytes in E;
  rewrite !w_enc_stored, W in E;
  repeat match type of E with
  | (if ?c then _ else _) = _ => destruct c; try discriminate E
  | bind ?x _ = _ => let X := fresh "X" in destruct x eqn:X; cbn [bind] in E; try discriminate E
  end; injection E as <-; eexists _, _; (split; [reflexivity|apply stored_byte]).
Qed.
Definition plain_kind (k : kind) : bool := match k with KPicture | KChap | KCtoc => false | _ => true end.
Lemma parse22 : forall kids s fl m b, plain_kind (kind_of_name s) = true ->
  (encoded (kind_of_name s) = true -> exists x r, b = x :: r /\ x <= 1) ->
  parse_content kids (Valid s) fl V2 m b = parse_content kids (Valid s) fl V3 m b.
Proof.
  intros kids s fl m b P F. rewrite !dispatch. cbv zeta.
  destruct (kind_of_name s); try discriminate P; auto; destruct (F eq_refl) as (x & r & -> & L);
  unfold parse_lang, parse_text, parse_user_text, parse_user_url, parse_key_value; cbn [read_u8 from_opt bind]; now rewrite verify22.
Qed.
(** Names of three characters that were not upgraded. *)
Lemma eqb34 : forall s n, length s = 3%nat -> length n = 4%nat -> list_eqb s n = false.
Proof. intros s n A B. apply list_eqb_neq. intros ->. congruence. Qed.
Lemma parse_old : forall kids s fl m b, length s = 3%nat ->
  parse_content kids (Outdated s) fl V2 m b =
  let h := mkFH (Outdated s) fl in
  if starts 84 s then parse_text h V2 b else if starts 87 s then parse_url h b else parse_bin h b.
Proof.
  intros kids s fl m b L. unfold parse_content. cbn [id_str]. unfold in_names, TIME_IDS. cbn [existsb].
  rewrite !(eqb34 s) by (auto; reflexivity). reflexivity.
Qed.

(** *** Names *)
Lemma chars22 : forall s, name22 s -> Forall (fun c => 0 < c < 128) s.
Proof. intros s [_ F]. eapply Forall_impl; [|exact F]. cbv beta. intros. lia. Qed.
Lemma names22_ok : forallb (fun p => Nat.eqb (length (fst p)) 3 && forallb (fun c => is_upper c || is_digit c) (fst p)
   && Nat.eqb (length (snd p)) 4 && forallb (fun c => is_upper c || is_digit c) (snd p)
   && plain_kind (kind_of_name (snd p)) || list_eqb (snd p) ($"APIC")) NAMES22 = true.
Proof. vm_compute. reflexivity. Qed.
Lemma all_chars : forall s, forallb (fun c => is_upper c || is_digit c) s = true -> Forall (fun c => 65 <= c <= 90 \/ 48 <= c <= 57) s.
Proof.
  intros s H. rewrite forallb_forall in H. apply Forall_forall. intros x I. specialize (H x I). unfold is_upper, is_digit in H. lia.
Qed.
Lemma known_names : forall o n, In (o, n) NAMES22 -> n <> $"APIC" -> name22 o /\ valid_name n /\ plain_kind (kind_of_name n) = true.
Proof.
  intros o n I NA. pose proof names22_ok as H. rewrite forallb_forall in H. specialize (H _ I). cbn [fst snd] in H.
  apply orb_true_iff in H as [H|H].
  2: { apply list_eqb_eq in H. congruence. }
  rewrite !andb_true_iff, !PeanoNat.Nat.eqb_eq in H. destruct H as ((((H1 & H2) & H3) & H4) & H5).
  split; [|split]; auto; split; auto using all_chars.
Qed.
Lemma upgrade22 : forallb (fun p => in_names (fst p) WRONG22 || match upgrade_v2 (fst p) with Some n => list_eqb n (snd p) | None => false end) NAMES22 = true.
Proof. vm_compute. reflexivity. Qed.
Lemma in_names_spec : forall s l, in_names s l = true <-> In s l.
Proof.
  intros. unfold in_names. rewrite existsb_exists. split.
  - intros (x & I & E). apply list_eqb_eq in E. congruence.
  - intros I. exists s. split; auto. apply list_eqb_refl.
Qed.
Lemma upgrade_known : forall o n, In (o, n) NAMES22 -> ~ In o WRONG22 -> upgrade_v2 o = Some n.
Proof.
  intros o n I NW. pose proof upgrade22 as H. rewrite forallb_forall in H. specialize (H _ I). cbn [fst snd] in H.
  apply orb_true_iff in H as [H|H]. apply in_names_spec in H. contradiction.
  destruct (upgrade_v2 o); [|discriminate]. apply list_eqb_eq in H. congruence.
Qed.
Lemma keys_in : forallb (fun p => in_names (fst p) (map fst NAMES22)) V2_KEYS = true. Proof. vm_compute. reflexivity. Qed.
Lemma upgrade_other : forall o, ~ In o (map fst NAMES22) -> upgrade_v2 o = None.
Proof.
  intros o NI. unfold upgrade_v2, assoc. destruct (find _ V2_KEYS) as [[a b]|] eqn:F; auto. apply find_some in F as (I & E). cbn [fst] in E.
  apply list_eqb_eq in E. subst a. pose proof keys_in as H. rewrite forallb_forall in H. specialize (H _ I). cbn [fst] in H.
  apply in_names_spec in H. contradiction.
Qed.

(** *** One frame *)
Lemma head22 : forall o c rest, name22 o -> lenN c < 2 ^ 24 ->
  parse_v2_header (stored22 o c ++ rest) =
  match frame_id_new (upgraded (upgrade_v2 o) o) with Some id => HOk id ff_default (lenN c) (c ++ rest) | None => HBad (lenN c) (c ++ rest) end.
Proof.
  intros o c rest Ho Hc. pose proof (chars22 _ Ho) as C. destruct Ho as [L _]. unfold stored22. rewrite <- !app_assoc, app_assoc.
  unfold parse_v2_header. rewrite read_exact_app by (rewrite lenN_app, be_enc_len; unfold lenN; rewrite L; reflexivity).
  destruct o as [|a [|b [|d [|]]]]; try discriminate L. cbn [app nth].
  apply Forall_cons_iff in C as [C1 C2]. destruct (N.eqb_spec a 0); [lia|].
  change (takeN 3 (a :: b :: d :: be_enc 3 (lenN c))) with [a; b; d].
  change (dropN 3 (a :: b :: d :: be_enc 3 (lenN c))) with (be_enc 3 (lenN c)).
  rewrite be_dec_enc by exact Hc.
  assert (A : Forall (fun c => c < 128) [a; b; d]).
  { constructor. lia. eapply Forall_impl; [|exact C2]. cbv beta. intros. lia. }
  rewrite <- (utf8_ascii' [a; b; d]) by exact A. rewrite utf8_dec_enc by now apply ascii_ok. rewrite utf8_ascii' by exact A. reflexivity.
Qed.
Lemma head_nonzero : forall o c rest, name22 o -> hd 0 (stored22 o c ++ rest) <> 0.
Proof.
  intros o c rest Ho. pose proof (chars22 _ Ho) as C. destruct Ho as [L _]. destruct o; [discriminate L|]. cbn [app hd stored22].
  apply Forall_cons_iff in C as [C1 _]. unfold stored22. cbn. lia.
Qed.
Definition plain_of (fl : frame_flags) : Prop := fl = ff_default.
Lemma frame_read : forall inflate kids u o name id c f more after, name22 name -> lenN c < 2 ^ 24 -> c <> [] ->
  frame_id_new (upgraded (upgrade_v2 name) name) = Some id -> (fo_cover o = true \/ id <> Valid ($"APIC")) ->
  parse_content kids id ff_default V2 (fo_mode o) c = Ok (Some f, more) ->
  read_frame inflate kids V2 u o (stored22 name c ++ after) = Ok (PNext f, more ++ after).
Proof.
  intros inflate kids u o name id c f more after Hn Hc NE Hi Hv P. unfold read_frame. cbn [is_v2 is_v4]. rewrite head22 by auto. rewrite Hi.
  assert (negb (fo_cover o) && id_eqb id (Valid ($"APIC")) = false) as ->.
  { destruct Hv as [-> | Hv]. reflexivity. destruct (id_eqb id _) eqn:E. apply id_eqb_eq in E. congruence. now rewrite andb_false_r. }
  rewrite andb_false_r. destruct (N.eqb_spec (lenN c) 0) as [Z|NZ]. { destruct c; [congruence|rewrite lenN_cons in Z; lia]. }
  unfold read_extras. cbn [ff_default ff_encryption ff_group ff_length ff_compression ff_unsync is_some orb bind].
  destruct (N.eqb_spec (lenN c) 0); [lia|]. rewrite takeN_app, dropN_app by reflexivity.
  unfold content_frame. change (mkFF false false false None false None false None) with ff_default. rewrite P. reflexivity.
Qed.
Lemma picture22 : forall ne name mime e t d db data h, In (name, mime) FORMATS -> terminated_ok e d -> enc_bytes ne e d db ->
  parse_picture h V2 (enc_to_u8 e :: name ++ t :: db ++ terminator e ++ data) =
  Ok (Some (FPicture h e (mkPic (pic_from_u8 t) (Some mime) (match d with [] => None | _ => Some d end) data)), []).
Proof.
  intros ne name mime e t d db data h I T B. unfold parse_picture. cbn [read_u8 from_opt bind]. rewrite enc_u8_back. cbn [from_opt bind is_v2].
  assert (L : lenN name = 3). { unfold FORMATS in I. cbn [In] in I. destruct I as [I|[I|[]]]; injection I as <- <-; reflexivity. }
  rewrite read_exact_app by auto. cbn [from_opt bind].
  assert ((if list_eqb name ($"PNG") then Ok (Some Png, t :: db ++ terminator e ++ data)
           else if list_eqb name ($"JPG") then Ok (Some Jpeg, t :: db ++ terminator e ++ data) else Err EMessage) =
          @Ok ferr _ (Some mime, t :: db ++ terminator e ++ data)) as ->.
  { unfold FORMATS in I. cbn [In] in I. destruct I as [I|[I|[]]]; injection I as <- <-; reflexivity. }
  cbn [bind read_u8 from_opt]. destruct (dec_term_enc ne e d db data T B) as (n & bom & E & _). rewrite <- app_assoc in E. rewrite E.
  cbn [bind d_content]. reflexivity.
Qed.
Lemma kind_leaf : forall f, plain_kind (kind_of f) = true -> leaf f = true. Proof. intros []; cbn; auto. Qed.
Lemma frame22_read : forall w inflate kids u o name f c after, w_v23 w = true -> frame22 w (fo_mode o) name f c -> lenN c < 2 ^ 24 ->
  (fo_cover o = true \/ name <> $"PIC") ->
  read_frame inflate kids V2 u o (stored22 name c ++ after) = Ok (PNext f, after) /\ name22 name /\ c <> [].
Proof.
  intros w inflate kids u o name f c after W F L Cv. destruct F as [old n f b I NW NA Hi Hf Hk C E | old f b Ho NI Hi Hf Hk C E | fmt mime e t d db data I Ht T B].
  - destruct (known_names old n I NA) as (Ho & Hn & P). pose proof P as P'. rewrite Hk in P'. pose proof (kind_leaf f P') as Lf.
    pose proof (leaf_nonempty w true (fo_mode o) f b C Lf E) as NE. split; [|split]; auto.
    rewrite <- W in C. destruct (rt_leaf w V3 kids (fo_mode o) f n) as [X|(b' & X & Y)]; auto; try discriminate. congruence.
    rewrite E in X. injection X as <-. rewrite W in *.
    apply (frame_read inflate kids u o old (Valid n) b (restored true f) []); auto.
    + rewrite (upgrade_known old n) by auto. now apply name_new.
    + right. congruence.
    + rewrite <- Hi, <- Hf. rewrite Hi. rewrite parse22; auto. rewrite <- Hi. exact Y. rewrite Hk. intro K. eapply first_byte; eauto.
  - assert (Lf : leaf f = true) by (destruct f; auto; contradiction).
    pose proof (leaf_nonempty w true (fo_mode o) f b C Lf E) as NE. split; [|split]; auto.
    apply (frame_read inflate kids u o old (Outdated old) b (restored true f) []); auto.
    + rewrite upgrade_other by auto. cbn [upgraded]. destruct Ho as [L3 F3]. unfold frame_id_new.
      assert (forallb (fun c => is_upper c || is_digit c) old = true) as ->.
      { apply forallb_forall. rewrite Forall_forall in F3. intros x J. specialize (F3 x J). unfold is_upper, is_digit. lia. }
      unfold lenN. rewrite L3. reflexivity.
    + right. discriminate.
    + destruct Ho as [L3 _]. rewrite parse_old by auto. cbv zeta.
      destruct old as [|x old]; [discriminate L3|]. cbn [hd] in Hk. cbn [starts].
      assert (HH : mkFH (Outdated (x :: old)) ff_default = f_header f).
      { rewrite <- Hf, <- Hi. unfold f_id, f_flags. destruct (f_header f); reflexivity. }
      rewrite HH. rewrite <- W in C.
      destruct f; try contradiction; cbn [f_header restored leaf_bytes content_ok] in *.
      * rewrite Hk, N.eqb_refl. destruct (rt_text w V3 ltac:(discriminate) h e value C) as (b' & X & Y). rewrite E in X. injection X as <-.
        assert (exists x r, b = x :: r /\ x <= 1) as (y & r & -> & Ly) by (apply (first_byte w (FText h e value) b W); auto).
        rewrite W in Y. rewrite <- Y. unfold parse_text. cbn [read_u8]. now rewrite verify22.
      * rewrite Hk. change (87 =? 84) with false. change (87 =? 87) with true. cbv iota.
        destruct C as (C1 & C2). destruct (rt_url w h content C1 C2) as (b' & X & _ & Y). rewrite E in X. injection X as <-. exact Y.
      * destruct Hk as [K1 K2]. destruct (N.eqb_spec x 84); [congruence|]. destruct (N.eqb_spec x 87); [congruence|]. injection E as <-. reflexivity.
  - assert (N3 : name22 ($"PIC")) by (split; [reflexivity|]; apply all_chars; reflexivity).
    split; [|split]; auto; [|discriminate].
    apply (frame_read inflate kids u o ($"PIC") (Valid ($"APIC")) _ _ []); auto; try discriminate.
    + destruct Cv as [Cv|Cv]; [now left|congruence].
    + rewrite dispatch. cbv zeta. change (kind_of_name ($"APIC")) with KPicture. cbv iota. now apply (picture22 (w_ne w)).
Qed.

(** *** All frames *)
Lemma frame22_names : forall w m name f c, frame22 w m name f c -> f_id f = Outdated name \/ named f.
Proof.
  intros w m name f c F. destruct F as [old n f b I NW NA Hi Hf Hk C E | old f b Ho NI Hi Hf Hk C E | fmt mime e t d db data I Ht T B].
  - right. apply restored_named. exists n. auto.
  - left. unfold f_id. rewrite restored_header. exact Hi.
  - right. exists ($"APIC"). auto.
Qed.
Lemma named_sane : forall f, named f -> sane f.
Proof. intros f (s & Hi & Hk) S. unfold f_name in S. rewrite Hi in S. cbn [id_str] in S. apply single_kinds in S. now rewrite Hk in S. Qed.
Lemma frame22_sane : forall w m name f c, frame22 w m name f c -> name22 name -> sane f.
Proof.
  intros w m name f c F N. destruct (frame22_names _ _ _ _ _ F) as [E|E]; [|now apply named_sane].
  intro S. exfalso. unfold f_name in S. rewrite E in S. cbn [id_str] in S. apply in_names_spec in S. destruct N as [L _].
  assert (A : forallb (fun x => Nat.eqb (length x) 4) ONE_PER_TAG = true) by reflexivity.
  rewrite forallb_forall in A. specialize (A _ S). rewrite L in A. discriminate A.
Qed.
Lemma add_sane : forall f l, sane f -> Forall sane l -> ~ In (identity_of f) (map identity_of l) -> add_read f l = l ++ [f].
Proof.
  intros f l Sf Sl NI. unfold add_read. replace (fl_insert f l) with (l ++ [f], @None frame); auto. symmetry.
  unfold fl_insert. destruct (in_names (f_name f) ONE_PER_TAG) eqn:S.
  - assert (X : Forall (fun g => f_id g <> f_id f) l).
    { rewrite Forall_forall in *. intros g I E. apply NI. apply in_map_iff. exists g. split; auto.
      unfold identity_of. unfold f_name in *. rewrite E, S. reflexivity. }
    unfold fl_remove, fl_removed. rewrite partition_none by auto. rewrite filter_none; auto.
    eapply Forall_impl; [|exact X]. cbv beta. intros g Hg. destruct (id_eqb (f_id g) (f_id f)) eqn:E; auto. apply id_eqb_eq in E. congruence.
  - rewrite take_first_none; auto. rewrite Forall_forall in *. intros g I. destruct (frame_eqb g f) eqn:E; auto. exfalso. apply NI.
    apply eqb_identity in E; auto. rewrite <- E. now apply in_map.
Qed.
Lemma end22 : forall inflate kids u o tail, hd 0 tail = 0 -> read_frame inflate kids V2 u o tail = Ok (PEnd, []).
Proof.
  intros. unfold read_frame. cbn [is_v2]. assert (parse_v2_header tail = HEnd) as ->; auto.
  unfold parse_v2_header. destruct (read_exact 6 tail) as [[h r]|] eqn:E; auto. apply read_exact_spec in E as (-> & L).
  destruct h. discriminate L. cbn [nth]. cbn [app hd] in H. subst. reflexivity.
Qed.
Lemma all22 : forall w inflate u o, w_v23 w = true -> forall l acc tail fuel, Forall (entry_ok w (fo_mode o)) l ->
  (fo_cover o = true \/ ~ In ($"PIC") (map e_name l)) -> Forall sane acc -> NoDup (map identity_of (acc ++ map e_frame l)) ->
  hd 0 tail = 0 -> (length (tag22 l) < fuel)%nat ->
  read_all inflate fuel V2 u o acc (tag22 l ++ tail) = Ok (acc ++ map e_frame l, []).
Proof.
  intros w inflate u o W. induction l as [|[name f c] l IH]; intros acc tail fuel F Cv Sa ND Ht Hf; (destruct fuel as [|fuel]; [lia|]); cbn [read_all].
  - cbn [tag22 flat_map app]. rewrite end22 by auto. cbn [bind map]. now rewrite app_nil_r.
  - apply Forall_cons_iff in F as [[F1 F2] F]. cbn [e_name e_frame e_content map] in *. unfold tag22 in *. cbn [flat_map e_name e_content] in *.
    rewrite <- app_assoc.
    destruct (frame22_read w inflate (read_all inflate fuel V2 false o []) u o name f c (tag22 l ++ tail) W F1 F2) as (E & Hn & NE).
    { destruct Cv as [Cv|Cv]; auto. right. intro. apply Cv. now left. }
    unfold tag22 in E. rewrite E. cbn [bind].
    pose proof (frame22_sane _ _ _ _ _ F1 Hn) as Sf.
    rewrite add_sane; auto.
    + fold (tag22 l). rewrite IH; auto. now rewrite <- app_assoc.
      destruct Cv as [Cv|Cv]; auto. right. intro. apply Cv. now right.
      apply Forall_app. split; auto. now rewrite <- app_assoc.
      assert (1 <= length (stored22 name c))%nat. { unfold stored22. rewrite app_length. destruct Hn as [Hn _]. lia. }
      rewrite app_length in Hf. unfold tag22. lia.
    + rewrite map_app in ND. cbn [map] in ND. apply NoDup_remove_2 in ND. intro J. apply ND. apply in_or_app. auto.
Qed.
