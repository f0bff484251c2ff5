(** C240: a generic tag saved to an MP4 file and read again: the way of [Tag::save_to] is [Into::<Ilst>::into(tag)] (mp4/ilst/mod.rs 781-930) followed by [write_to]
    (tag/utils.rs 51-80), the way of reading is [Ilst] followed by [Into::<Tag>::into]. *)
From Verif Require Import Base BaseLemmas Str StrLemmas TextModel TextSpec TextProof Mode PictureModel FileModel Mp4Model Mp4WriteModel Mp4Spec Mp4Proof Mp4Ex Mp4Thm2 Mp4Thm3.
From Verif Require Import ItemKeyThm TagThm IlstModel IlstThm IlstProof IlstThm2 IlstThm3.

(** What an MP4 tag can take as it is: texts that are not empty and do not end in NUL; pictures without description, of a type that the format knows *)
Definition mp4_text (x : tag_item) : Prop := forall s, it_value x = VText s -> s <> [] /\ text_ok s.
Definition mp4_picture (p : picture) : Prop := p_desc p = None /\ p_data p <> [] /\ In (p_mime p) [None; Some Gif; Some Jpeg; Some Png; Some Bmp].
Definition mp4_fits (t : mtag) : Prop := Forall mp4_text (t_items t) /\ Forall mp4_picture (t_pictures t).

(** ** The items of such a tag can be stored *)
Definition in_bytes (f : bytes) (l : list bytes) : bool := existsb (list_eqb f) l.
Lemma in_bytes_In : forall f l, in_bytes f l = true <-> In f l.
Proof.
  intros f l. unfold in_bytes. rewrite existsb_exists. split.
  - intros (x & I & E). apply list_eqb_eq in E. now subst.
  - intro I. exists f. split; auto. apply list_eqb_refl.
Qed.
Definition text_okb (s : str) : bool := forallb (fun c => c <? 0x80) s && negb (last s 1 =? 0).
Definition ident_okb (i : ident) : bool :=
  match i with
  | Fourcc f => (lenN f =? 4) && forallb (fun b => (0x20 <=? b) && (b <=? 0x7E) || (b =? 0xA9)) f && negb (list_eqb f ($"----"))
  | Freeform mean name => text_okb mean && text_okb name
  end.
Lemma text_okb_ok : forall s, text_okb s = true -> text_ok s.
Proof.
  intros s H. apply andb_prop in H as [A B]. split.
  - rewrite forallb_forall in A. apply Forall_forall. intros c I. specialize (A c I). apply N.ltb_lt in A. unfold scalar, scalarb. replace (c <? 0x110000) with true by lia. replace (0xD800 <=? c) with false by lia. reflexivity.
  - unfold no_nul_end. intro E. rewrite E in B. discriminate.
Qed.
Lemma ident_okb_ok : forall i, ident_okb i = true -> ident_ok i.
Proof.
  intros [f|mean name] H; cbn [ident_okb ident_ok] in *.
  - apply andb_prop in H as [H D]. apply andb_prop in H as [L A]. split; [split; [lia|]|].
    + rewrite forallb_forall in A. apply Forall_forall. intros c I. specialize (A c I). lia.
    + intros ->. rewrite list_eqb_refl in D. discriminate.
  - apply andb_prop in H as [A B]. auto using text_okb_ok.
Qed.
Lemma key_table : forall k i, ident_of_key k = Some i -> ident_ok i /\
  (if flag_key k then exists f, i = Fourcc f /\ In f FLAGS else forall f, i = Fourcc f -> ~ In f SPECIAL).
Proof.
  intros k i E.
  assert (A : forallb (fun k => match ident_of_key k with
    | Some i => ident_okb i && match i with Fourcc f => if flag_key k then in_bytes f FLAGS else negb (in_bytes f SPECIAL) | _ => negb (flag_key k) end
    | None => true end) all_keys = true) by (vm_compute; reflexivity).
  pose proof (for_keys _ A k) as B. cbv beta in B. rewrite E in B. clear A. apply andb_prop in B as [B C]. split. now apply ident_okb_ok.
  destruct i as [f|mean name]; destruct (flag_key k); try discriminate.
  - exists f. split; auto. now apply in_bytes_In.
  - intros g G. inversion G; subst g. intro I. apply in_bytes_In in I. rewrite I in C. discriminate.
Qed.
Lemma merge_text_shape : forall k i s p, let l := snd (merge_text k i s p) in
  l = [] \/ (flag_key k = true /\ exists b, l = [mkAtom i [ABool b]]) \/ (flag_key k = false /\ exists r, l = [mkAtom i [ASigned (Z.of_N (rating_u8 r))]]) \/
  (flag_key k = false /\ l = [mkAtom i [AUtf8 s]]).
Proof.
  intros k i s p. cbv zeta.
  destruct k; cbn [merge_text snd flag_key]; auto.
  all: try (destruct (ApeModel.flag_item s) as [b|]; eauto 6; fail).
  destruct (parse_uint U8_MAX s); auto. destruct (rating_of n); eauto 7.
Qed.
Lemma item_atoms_ok : forall x, mp4_text x -> Forall atom_ok (item_atoms x) /\ Forall (fun a => ident_of_key (it_key x) = Some (at_ident a)) (item_atoms x).
Proof.
  intros x T. unfold item_atoms, merge_item. destruct (ident_of_key (it_key x)) as [i|] eqn:K; [|cbn [snd]; auto]. destruct (it_value x) as [s|s|s] eqn:V; [|cbn [snd]; auto|cbn [snd]; auto].
  destruct (T s V) as [NE TO]. destruct (key_table _ _ K) as [IO FS].
  destruct (merge_text_shape (it_key x) i s (mkPairs None None None None)) as [->|[(F & b & ->)|[(F & r & ->)|(F & ->)]]]; auto; rewrite F in FS.
  - destruct FS as (f & -> & I). split; [constructor; [|constructor]|constructor; [auto|constructor]]. split; [exact IO|]. split; [discriminate|]. now apply VoFlag.
  - split; [constructor; [|constructor]|constructor; [auto|constructor]]. split; [exact IO|]. split; [discriminate|]. apply VoPlain; auto. constructor; auto. cbn [plain_value]. destruct r; vm_compute; split; congruence.
  - split; [constructor; [|constructor]|constructor; [auto|constructor]]. split; [exact IO|]. split; [discriminate|]. apply VoPlain; auto. constructor; auto. now split.
Qed.
Lemma pair_atoms_ok : forall i n t, i = TRKN \/ i = DISK -> Forall atom_ok (int_pair i n t) /\ Forall (fun a => at_ident a = i) (int_pair i n t).
Proof.
  intros i n t H.
  assert (X : atom_ok (mkAtom i [AUnknown DT_RESERVED ([0; 0] ++ be_enc 2 (or0 n) ++ be_enc 2 (or0 t) ++ [0; 0])])).
  { unfold atom_ok. cbn [at_ident at_data]. split; [|split; [discriminate|]].
    - apply ident_okb_ok. destruct H as [-> | ->]; reflexivity.
    - apply VoPlain.
      + constructor; auto. cbn [plain_value]. split; [reflexivity|]. split; [|discriminate]. vm_compute. intros [E|[E|[E|[E|[]]]]]; discriminate.
      + intros f E I. apply in_bytes_In in I. destruct H as [-> | ->]; inversion E; subst f; vm_compute in I; discriminate. }
  unfold int_pair. destruct n, t; split; constructor; auto.
Qed.
Lemma fits_ok : forall t, mp4_fits t -> Forall atom_ok (merge_tag [] t).
Proof.
  intros t [FI FP]. rewrite merge_eq. cbn [app]. rewrite !Forall_app. split; [|split; [|split]]; try (apply pair_atoms_ok; auto).
  - apply Forall_forall. intros a I. apply in_flat_map in I as (x & Ix & I). rewrite Forall_forall in FI. destruct (item_atoms_ok x (FI x Ix)) as [F _]. rewrite Forall_forall in F. auto.
  - unfold covr_atom. destruct (t_pictures t) as [|p0 ps] eqn:E; [constructor|]. rewrite <- E in *. constructor; [|constructor]. split; [apply ident_okb_ok; reflexivity|].
    cbn [at_data at_ident]. split; [rewrite E; discriminate|]. apply VoCovr. clear E p0 ps. induction FP as [|p l (D & N & M) FP IH]; constructor; auto. cbn [pic_value as_other p_type p_desc p_data p_mime]. auto.
Qed.
Lemma fits_kept : forall o t, mp4_fits t -> mo_cover o = true -> Forall (Mp4Spec.kept o) (merge_tag [] t).
Proof.
  intros o t [FI FP] C. apply Forall_forall. intros a I. split; auto. intro G. exfalso. rewrite merge_eq in I. cbn [app] in I. rewrite !in_app_iff in I.
  destruct I as [I|[I|[I|I]]].
  - apply in_flat_map in I as (x & Ix & I). rewrite Forall_forall in FI. destruct (item_atoms_ok x (FI x Ix)) as [F1 F]. rewrite Forall_forall in F1, F. specialize (F a I). rewrite G in F. destruct (key_table _ _ F) as [_ T].
    destruct (flag_key (it_key x)).
    + destruct T as (f & E & J). inversion E; subst f. apply in_bytes_In in J. vm_compute in J. discriminate.
    + apply (T _ eq_refl). apply in_bytes_In. reflexivity.
  - unfold covr_atom in I. destruct (t_pictures t); [contradiction|]. destruct I as [<-|[]]. discriminate.
  - destruct (pair_atoms_ok TRKN (fold_left uint_or (nums KTrackNumber (t_items t)) None) (fold_left uint_or (nums KTrackTotal (t_items t)) None) (or_introl eq_refl)) as [_ F]. rewrite Forall_forall in F. rewrite (F a I) in G. discriminate.
  - destruct (pair_atoms_ok DISK (fold_left uint_or (nums KDiscNumber (t_items t)) None) (fold_left uint_or (nums KDiscTotal (t_items t)) None) (or_intror eq_refl)) as [_ F]. rewrite Forall_forall in F. rewrite (F a I) in G. discriminate.
Qed.

(** ** The tag that is read again, in terms of the one that was saved *)
Definition mp4_again (t u : mtag) : Prop :=
  (forall k, plain_key k -> get_strings u k = landing k (t_items t)) /\
  (forall i nk tk, numbered i nk tk ->
     get_strings u nk = positive (or0 (last_number (get_strings t nk))) /\ get_strings u tk = positive (or0 (last_number (get_strings t tk)))) /\
  get_strings u KParentalAdvisory = match TagModel.filter_map accepted (get_strings t KParentalAdvisory) with r :: _ => [to_dec (rating_u8 r)] | [] => [] end /\
  t_pictures u = map as_other (t_pictures t).
Lemma back_again : forall p t, t_companion t = None -> mp4_again t (back p t).
Proof.
  intros p t C. split; [|split; [|split]].
  - intros k P. now apply C134_texts.
  - intros i nk tk H. now apply (C134_numbers p t i nk tk).
  - now apply C134_rating.
  - now apply C134_pictures.
Qed.
(** A file with a tag already *)
Theorem C240_replaced : forall pre k1 u1 vers a0 f1 old f2 b0 u2 k2 post (t : mtag) p m padding I o,
  saveable pre k1 u1 vers a0 f1 old f2 b0 u2 k2 post -> padding_ok padding ->
  let top := mp4_file pre k1 u1 (vers ++ encs (a0 ++ f1 ++ old :: f2 ++ b0)) u2 k2 post in
  readable o k1 u1 a0 b0 u2 k2 -> a0 <> [] -> mo_cover o = true ->
  t_companion t = None -> mp4_fits t -> ilst_of_tag p t <> [] ->
  build_ilst (ilst_of_tag p t) = Ok I -> lenN (encs top) + lenN I + max_pad padding < 2 ^ 32 ->
  exists log brand traks l, mp4_write (encs top) (ilst_of_tag p t) m padding = Ok log /\
    mp4_read (apply_log (encs top) log) o = Ok (brand, traks, Some l) /\ mp4_again t (tag_of_ilst p l).
Proof.
  intros pre k1 u1 vers a0 f1 old f2 b0 u2 k2 post t p m padding I o HS HP top HR HA HC C F NE HI HL.
  assert (E : ilst_of_tag p t = merge_tag [] t) by (unfold ilst_of_tag; rewrite C; destruct p; reflexivity).
  destruct (C116_read_back pre k1 u1 vers a0 f1 old f2 b0 u2 k2 post (ilst_of_tag p t) m padding I o HS HI HP HL) as (log & brand & traks & W & R); auto.
  - rewrite E. now apply fits_ok.
  - rewrite E. now apply fits_kept.
  - exists log, brand, traks, (ilst_of_tag p t). split; [exact W|]. split; [exact R|]. now apply back_again.
Qed.
Print Assumptions C240_replaced.
(** A file without user data *)
Theorem C240_added : forall pre ks post (t : mtag) p m padding I o,
  boxes_ok (bare pre ks post) -> ftyp_first (bare pre ks post) -> none_named ($"moov") pre -> none_named ($"udta") ks ->
  mo_tags o = true -> mo_cover o = true -> quiet o ks ->
  t_companion t = None -> mp4_fits t -> ilst_of_tag p t <> [] ->
  build_ilst (ilst_of_tag p t) = Ok I -> lenN (encs ks) + lenN I + 61 < 2 ^ 32 ->
  exists log brand traks l, mp4_write (encs (bare pre ks post)) (ilst_of_tag p t) m padding = Ok log /\
    mp4_read (apply_log (encs (bare pre ks post)) log) o = Ok (brand, traks, Some l) /\ mp4_again t (tag_of_ilst p l).
Proof.
  intros pre ks post t p m padding I o HO HF HN HU HT HC HQ C F NE HI HL.
  assert (E : ilst_of_tag p t = merge_tag [] t) by (unfold ilst_of_tag; rewrite C; destruct p; reflexivity).
  destruct (C118_udta_read_back pre ks post (ilst_of_tag p t) m padding I o) as (log & brand & traks & W & R); auto.
  - rewrite E. now apply fits_ok.
  - rewrite E. now apply fits_kept.
  - exists log, brand, traks, (ilst_of_tag p t). split; [exact W|]. split; [exact R|]. now apply back_again.
Qed.
Print Assumptions C240_added.
(** What is not read again: an empty text, the description of a picture, a text that ends in NUL *)
Definition mp4_roundtrip (t : mtag) : res mp4_error (option mtag) :=
  let? log := mp4_write (encs (bare [ftyp_ex] [leaf ($"mvhd") [9]; trak_ex (stco_ex [120])] [mdat_ex])) (ilst_of_tag true t) Strict None in
  let? r := mp4_read (apply_log (encs (bare [ftyp_ex] [leaf ($"mvhd") [9]; trak_ex (stco_ex [120])] [mdat_ex])) log) read_ex in
  Ok (option_map (tag_of_ilst true) (snd r)).
Definition cover (d : option str) : picture := mkPic PCoverFront (Some Png) d [1; 2; 3].
Theorem C240_picture_refuted : ~ (forall t u, t_companion t = None -> mp4_roundtrip t = Ok (Some u) -> t_pictures u = t_pictures t).
Proof.
  intro H. specialize (H (mkTag Mp4Ilst [cover (Some ($"front"))] [] None)).
  assert (E : mp4_roundtrip (mkTag Mp4Ilst [cover (Some ($"front"))] [] None) = Ok (Some (mkTag Mp4Ilst [mkPic POther (Some Png) None [1; 2; 3]] [] None))) by (vm_compute; reflexivity).
  specialize (H _ eq_refl E). clear E. vm_compute in H. discriminate H.
Qed.
Print Assumptions C240_picture_refuted.
Theorem C240_nul_refuted : ~ (forall t u, t_companion t = None -> mp4_roundtrip t = Ok (Some u) -> get_strings u KTrackTitle = get_strings t KTrackTitle).
Proof.
  intro H. specialize (H (mkTag Mp4Ilst [] [new_item KTrackTitle (VText [65; 0])] None)).
  assert (E : mp4_roundtrip (mkTag Mp4Ilst [] [new_item KTrackTitle (VText [65; 0])] None) = Ok (Some (mkTag Mp4Ilst [] [new_item KTrackTitle (VText [65])] None))) by (vm_compute; reflexivity).
  specialize (H _ eq_refl E). clear E. vm_compute in H. discriminate H.
Qed.
Print Assumptions C240_nul_refuted.
Theorem C240_number_refuted : ~ (forall t u, t_companion t = None -> mp4_roundtrip t = Ok (Some u) -> get_strings u KTrackNumber = get_strings t KTrackNumber).
Proof.
  intro H. specialize (H (mkTag Mp4Ilst [] [new_item KTrackNumber (VText ($"A1")); new_item KTrackTitle (VText ($"x"))] None)).
  assert (E : mp4_roundtrip (mkTag Mp4Ilst [] [new_item KTrackNumber (VText ($"A1")); new_item KTrackTitle (VText ($"x"))] None) = Ok (Some (mkTag Mp4Ilst [] [new_item KTrackTitle (VText ($"x"))] None))) by (vm_compute; reflexivity).
  specialize (H _ eq_refl E). clear E. vm_compute in H. discriminate H.
Qed.
Print Assumptions C240_number_refuted.
Definition tag_ex240 : mtag := mkTag Mp4Ilst [mkPic PCoverFront (Some Png) None [1; 2; 3]]
  [new_item KTrackTitle (VText ($"Title")); new_item KUnsyncLyrics (VText ($"la")); new_item KTrackNumber (VText ($"07")); new_item KTrackTotal (VText ($"12"));
   new_item KFlagCompilation (VText ($"true")); new_item KMusicBrainzRecordingId (VText ($"abc")); new_item KParentalAdvisory (VText ($"4")); new_item KAppleXid (VText ($"xid"))] None.
Example C240_fits : mp4_fits tag_ex240 /\ ilst_of_tag true tag_ex240 <> [].
Proof.
  split; [|vm_compute; discriminate]. split.
  - repeat (constructor; [intros s E; inversion E; subst s; split; [discriminate|apply text_okb_ok; reflexivity]|]). constructor.
  - constructor; [|constructor]. split; auto. split; [discriminate|]. cbn. auto 6.
Qed.
Example C240_ex : mp4_roundtrip tag_ex240 = Ok (Some (mkTag Mp4Ilst [mkPic POther (Some Png) None [1; 2; 3]]
  [new_item KTrackTitle (VText ($"Title")); new_item KLyrics (VText ($"la"));
   new_item KFlagCompilation (VText ($"1")); new_item KMusicBrainzRecordingId (VText ($"abc")); new_item KAppleXid (VText ($"xid"));
   new_item KTrackNumber (VText ($"7")); new_item KTrackTotal (VText ($"12")); new_item KParentalAdvisory (VText ($"1"))] None)).
Proof. vm_compute. reflexivity. Qed.
