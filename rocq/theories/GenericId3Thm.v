(** C241: a generic tag saved as ID3v2.4 to an MPEG or AAC file and read again. [Tag::save_to] writes the frames of [tag_frames] (id3/v2/tag/conversion.rs 453-494) with
    default flags (mpeg/mod.rs, id3/v2/write/mod.rs 60-190); reading gives an [Id3v2Tag], which [Into::<Tag>::into] converts. *)
From Coq Require Import Permutation.
From Verif Require Import AacSpec AacModel AacProof3 AacThm MpegThm2 FrameSaveThm MpegThm MpegProof4.
From Verif Require Import Id3v2HeaderProof BaseLemmas Frame23Proof FrameProof2 FrameThm ItemKeyThm Id3v2TagProof2 Id3v2TagProof4 Id3v2TagThm2.
From Verif Require Import Id3v2TagSpec.

(** Items that ID3v2.4 can take as they are *)
Definition DATES : list item_key := [KReleaseDate; KTaggingTime; KEncodingTime].
Definition storable (i : tag_item) : Prop :=
  (exists s, it_value i = VText s /\ str_ok s /\ s <> [] /\ no_nul s /\ (it_key i = KPopularimeter -> Forall (fun c => c <= 255) s)) /\
  str_ok (it_desc i) /\ no_nul (it_desc i) /\ ~ In (it_key i) DATES /\
  (In (it_key i) [ItemKeyModel.KComment; KUnsyncLyrics] -> length (it_lang i) = 3%nat /\ Forall letter (it_lang i)).
Definition apic_ok (p : picture) : Prop :=
  match p_mime p with Some m => mime_ok m | None => True end /\ pic_as_u8 (p_type p) < 256 /\ pic_from_u8 (pic_as_u8 (p_type p)) = p_type p /\
  match p_desc p with Some d => d <> [] /\ str_ok d /\ no_nul d | None => True end.

(** ** The frames can be stored *)
Lemma no_nul_forall : forall s, no_nul s -> Forall (fun c => c <> 0) s.
Proof. intros s H. apply Forall_forall. intros c I E. subst. auto. Qed.
Lemma last_in : forall (s : str) d, s <> [] -> In (last s d) s.
Proof.
  induction s as [|c s IH]; intros d H; [congruence|]. destruct s as [|c2 s]; [now left|]. right. change (last (c :: c2 :: s) d) with (last (c2 :: s) d). apply IH. discriminate.
Qed.
Lemma no_nul_last : forall s, no_nul s -> last s 1 <> 0.
Proof. intros s H E. destruct s as [|c s]; [discriminate|]. apply H. rewrite <- E. apply last_in. discriminate. Qed.
Lemma last_app_ne : forall (a b : str) d, b <> [] -> last (a ++ b) d = last b d.
Proof.
  induction a as [|c a IH]; intros b d H; auto. rewrite <- (IH b d H). cbn [app]. destruct (a ++ b) eqn:E; auto. exfalso. apply app_eq_nil in E. tauto.
Qed.
Lemma text_utf8 : forall s, str_ok s -> no_nul s -> text_ok UTF8 s.
Proof. intros s A B. split; auto. split; auto. now apply no_nul_last. Qed.
Lemma term_utf8 : forall s, str_ok s -> no_nul s -> terminated_ok UTF8 s.
Proof. intros s A B. split; auto. split; auto. now apply no_nul_forall. Qed.
Lemma joined_ok : forall l, l <> [] -> Forall (fun s => str_ok s /\ s <> [] /\ no_nul s) l -> text_ok UTF8 (nul_joined l).
Proof.
  intros l NE F. assert (G : str_ok (nul_joined l) /\ nul_joined l <> [] /\ last (nul_joined l) 1 <> 0).
  { induction l as [|s l IH]; [congruence|]. apply Forall_cons_iff in F as [(A & B & C) F]. destruct l as [|s2 l].
    - cbn [nul_joined]. auto using no_nul_last.
    - destruct (IH ltac:(discriminate) F) as (G1 & G2 & G3). change (nul_joined (s :: s2 :: l)) with (s ++ [0] ++ nul_joined (s2 :: l)). split; [|split].
      + apply Forall_app. split; auto. apply Forall_app. split; auto. constructor; auto. reflexivity.
      + destruct s; [congruence|discriminate].
      + rewrite app_assoc, last_app_ne; auto. }
  destruct G as (A & _ & B). split; auto.
Qed.
Lemma simple_ok : forall m f s, f_id f = Valid s -> valid_name s -> kind_of_name s = kind_of f -> f_flags f = ff_default -> kind_of f <> KOwne -> kind_of f <> KEtco ->
  (match f with FChap _ _ _ _ l | FCtoc _ _ _ _ _ l => l | _ => [] end) = [] -> content_ok false m f -> frame_ok false m f.
Proof.
  intros m f s A B C D E1 E2 K O. apply ok_frame; auto.
  - split; [|split; auto]. { exists s. split; auto. split; auto. split; auto. discriminate. } rewrite D. repeat split.
  - rewrite K. constructor.
  - rewrite K. split; [constructor|]. vm_compute. discriminate.
Qed.
Definition valid_nameb (s : str) : bool := Nat.eqb (length s) 4 && forallb (fun c => (65 <=? c) && (c <=? 90) || (48 <=? c) && (c <=? 57)) s.
Lemma valid_nameb_ok : forall s, valid_nameb s = true -> valid_name s.
Proof.
  intros s H. apply andb_prop in H as [A B]. split. now apply Nat.eqb_eq. apply Forall_forall. rewrite forallb_forall in B. intros c I. specialize (B c I). lia.
Qed.
Definition kind_eq_dec : forall a b : kind, {a = b} + {a <> b}. Proof. decide equality. Defined.
Definition names_text (s : str) : bool := valid_nameb s && if kind_eq_dec (kind_of_name s) KText then true else false.
Lemma named_text : forall m id s, names_text id = true -> text_ok UTF8 s -> frame_ok false m (text_frame id s).
Proof.
  intros m id s H T. apply andb_prop in H as [A B]. destruct (kind_eq_dec _ _) as [K|]; [|discriminate]. apply (simple_ok m _ id); auto using valid_nameb_ok; discriminate.
Qed.
Lemma text_names : forall k id, In (k, id) TEXT_OF \/ (In (k, id) SINGLE_OF /\ ~ In k DATES) -> names_text id = true.
Proof.
  intros k id H.
  assert (A : forallb (fun p => names_text (snd p)) TEXT_OF = true) by (vm_compute; reflexivity).
  assert (B : forallb (fun p => existsb (fun d => ik_eqb (fst p) d) DATES || names_text (snd p)) SINGLE_OF = true) by (vm_compute; reflexivity).
  rewrite forallb_forall in A, B. destruct H as [H|[H N]].
  - exact (A _ H).
  - specialize (B _ H). cbn [fst snd] in B. apply orb_prop in B as [B|B]; auto. exfalso. apply N. apply existsb_exists in B as (d & I & E). apply ik_eqb_eq in E. now subst.
Qed.
Lemma storable_text : forall k s, storable (txt k s) -> str_ok s /\ s <> [] /\ no_nul s /\ ~ In k DATES.
Proof. intros k s ((s' & E & A & B & C & _) & _ & _ & D & _). cbn in E. inversion E; subst s'. auto. Qed.
Lemma storable_texts : forall k l, Forall storable (map (txt k) l) -> Forall (fun s => str_ok s /\ s <> [] /\ no_nul s) l.
Proof. intros k l F. rewrite Forall_map in F. eapply Forall_impl; [|exact F]. intros s H. destruct (storable_text k s H) as (A & B & C & _). auto. Qed.
Definition desc_okb (d : str) : bool := forallb (fun c => (0 <? c) && (c <? 128)) d.
Lemma desc_okb_ok : forall e d, e = Latin1 \/ e = UTF8 -> desc_okb d = true -> terminated_ok e d.
Proof.
  intros e d HE H. unfold desc_okb in H. rewrite forallb_forall in H. split; [|split].
  - apply Forall_forall. intros c I. specialize (H c I). assert (L : c < 128) by lia. unfold scalar, scalarb. replace (c <? 0x110000) with true by lia. replace (0xD800 <=? c) with false by lia. reflexivity.
  - apply Forall_forall. intros c I. specialize (H c I). lia.
  - destruct HE as [-> | ->]; auto. apply Forall_forall. intros c I. specialize (H c I). lia.
Qed.
Lemma user_descs : forall k d, In (k, d) USER_OF \/ In (k, d) GAIN_OF -> desc_okb d = true.
Proof.
  intros k d H. assert (A : forallb (fun p => desc_okb (snd p)) (USER_OF ++ GAIN_OF) = true) by (vm_compute; reflexivity). rewrite forallb_forall in A.
  apply (A (k, d)). apply in_or_app. auto.
Qed.
Lemma user_ok : forall m d s, desc_okb d = true -> text_ok UTF8 s -> frame_ok false m (user_text_frame d s).
Proof.
  intros m d s D T. apply (simple_ok m _ ($"TXXX")); auto; try discriminate. apply valid_nameb_ok; reflexivity. split; auto. apply desc_okb_ok; auto.
Qed.
Lemma dispatch_rate : forall custom email p, (forall st, rate custom Id3v2 st < 256) -> dispatch custom email = Some p -> forall st, rate p Id3v2 st < 256.
Proof.
  intros custom email p H D st. unfold dispatch in D. repeat (destruct (list_eqb _ _); [inversion D; subst p; destruct st; vm_compute; reflexivity|]). destruct (supports_email _ _); inversion D; subst; auto.
Qed.
Lemma carries_ok : forall custom m g f, (forall st, rate custom Id3v2 st < 256) -> carries custom g f -> Forall storable g -> frame_ok false m f.
Proof.
  intros custom m g f HR K F. destruct K.
  - apply named_text. apply (text_names k); auto. apply joined_ok; auto. eapply storable_texts; eauto.
  - apply Forall_cons_iff in F as [F _]. destruct (storable_text _ _ F) as (A & B & C & D). apply named_text. apply (text_names k); auto. now apply text_utf8.
  - apply named_text. reflexivity. apply joined_ok; auto. eapply storable_texts; eauto.
  - apply Forall_cons_iff in F as [F _]. destruct (storable_text _ _ F) as (A & B & C & D). apply named_text. cbn [In PAIR_OF] in H. destruct H as [H|[H|[]]]; inversion H; reflexivity. now apply text_utf8.
  - apply Forall_cons_iff in F as [F1 F]. apply Forall_cons_iff in F as [F2 _]. destruct (storable_text _ _ F1) as (A & B & C & D). destruct (storable_text _ _ F2) as (A2 & B2 & C2 & D2).
    apply named_text. cbn [In PAIR_OF] in H. destruct H as [H|[H|[]]]; inversion H; reflexivity. apply text_utf8.
    + apply Forall_app. split; auto. apply Forall_app. split; auto. repeat constructor.
    + unfold no_nul in *. rewrite !in_app_iff. intros [X|[[X|[]]|X]]; auto. discriminate.
  - apply named_text. reflexivity. apply text_utf8; destruct b; repeat constructor; intros [X|[]]; discriminate.
  - cbn [In DATE_OF] in H. destruct H as [H|[H|[]]]; apply (f_equal snd) in H; cbn [snd] in H; subst id; eapply simple_ok; [reflexivity|..]; try reflexivity; try discriminate; try (apply valid_nameb_ok; reflexivity); auto.
  - apply user_ok. eapply user_descs; eauto. apply joined_ok; auto. eapply storable_texts; eauto.
  - apply Forall_cons_iff in F as [F _]. destruct (storable_text _ _ F) as (A & B & C & D). apply user_ok. eapply user_descs; eauto. now apply text_utf8.
  - apply Forall_cons_iff in F as [F _]. destruct (storable_text _ _ F) as (A & B & C & D). apply user_ok. reflexivity. now apply text_utf8.
  - apply Forall_cons_iff in F as [((s' & E & A & B & C & _) & D1 & D2 & _ & L) _]. cbn in E. inversion E; subst s'. cbn [it_desc it_lang it_key] in *. destruct L as [L1 L2]; [now left|].
    eapply simple_ok; [reflexivity|..]; try reflexivity; try discriminate. apply valid_nameb_ok; reflexivity. split; auto. split; auto. split. now apply term_utf8. now apply text_utf8.
  - apply Forall_cons_iff in F as [((s' & E & A & B & C & _) & D1 & D2 & _ & L) _]. cbn in E. inversion E; subst s'. cbn [it_desc it_lang it_key] in *. destruct L as [L1 L2]; [right; now left|].
    eapply simple_ok; [reflexivity|..]; try reflexivity; try discriminate. apply valid_nameb_ok; reflexivity. split; auto. split; auto. split. now apply term_utf8. now apply text_utf8.
  - apply Forall_cons_iff in F as [((s' & E & _) & _) _]. discriminate.
  - eapply simple_ok; [reflexivity|..]; try reflexivity; try discriminate. apply valid_nameb_ok; reflexivity. split. apply desc_okb_ok; [auto|reflexivity]. left. discriminate.
  - apply Forall_cons_iff in F as [((s' & E & A & B & C & Lt) & _) _]. cbn in E. inversion E; subst s'. specialize (Lt eq_refl). apply Forall_app in A as [A _]. apply Forall_app in Lt as [Lt _].
    eapply simple_ok; [reflexivity|..]; try reflexivity; try discriminate. apply valid_nameb_ok; reflexivity. split; [|split; [eapply dispatch_rate; eauto|]].
    + split; auto. split; auto. apply no_nul_forall. intro I. apply C. apply in_or_app. now left.
    + unfold U64_MAX in *. change (2 ^ 64) with (18446744073709551616). lia.
  - eapply simple_ok; [reflexivity|..]; try reflexivity; try discriminate. apply valid_nameb_ok; reflexivity. split. now destruct l.
    rewrite Forall_map. rewrite Forall_map in F. rewrite Forall_forall in F, H0 |- *. intros p I. specialize (F p I). specialize (H0 p I). destruct (storable_text _ _ F) as (A & B & C & D). cbn [fst snd]. split; [|now apply term_utf8].
    apply desc_okb_ok; auto. assert (X : forallb (fun p => desc_okb (snd p)) ROLE_OF = true) by reflexivity. rewrite forallb_forall in X. exact (X _ H0).
Qed.

(** ** The frames that are saved *)
Section Saved.
Variables (custom : provider) (order : frames -> frames) (gs : list (list tag_item)) (fs : list frame) (ps : list picture).
Hypothesis Or : forall l, Permutation (order l) l.
Hypothesis Rb : forall st, rate custom Id3v2 st < 256.
Hypothesis K : Forall2 (carries custom) gs fs.
Hypothesis N1 : NoDup (map identity_of fs).
Hypothesis O1 : one_people fs.
Hypothesis St : Forall storable (concat gs).
Hypothesis N2 : NoDup ps.
Hypothesis Pk : Forall apic_ok ps.
Let g : gtag := mkTag Id3v2 ps (concat gs) None.
Let l : frames := tag_frames order custom g.
Let first : frames := order (from_tag custom false (concat gs)).

Lemma saved_eq : l = first ++ map picture_frame ps.
Proof. reflexivity. Qed.
Lemma first_perm : Permutation first fs.
Proof.
  unfold first. rewrite Or. rewrite C161_same.
  - destruct (carried custom _ _ K) as (C & E & _). rewrite <- E. apply from_tag_canonical; auto.
  - eapply Forall_impl; [|exact St]. intros i ((s & E & _) & _). unfold is_locator. now rewrite E.
Qed.
Lemma each_ok : forall m, Forall (frame_ok false m) fs.
Proof.
  intro m. clear - K St Rb. revert St. induction K as [|gi f gs' fs' C KK IH]; intro F; constructor; cbn [concat] in F; apply Forall_app in F as [F1 F2].
  - eapply carries_ok; eauto.
  - auto.
Qed.
Lemma picture_ok : forall m p, apic_ok p -> frame_ok false m (picture_frame p).
Proof.
  intros m p (A & B & C & D). eapply simple_ok; [reflexivity|..]; try reflexivity; try discriminate. apply valid_nameb_ok; reflexivity. split; auto. split; auto. split; auto.
  destruct (p_desc p); auto. destruct D as (D1 & D2 & D3). split; auto. now apply term_utf8.
Qed.
Lemma saved_ok : forall m, Forall (frame_ok false m) l.
Proof.
  intro m. rewrite saved_eq. apply Forall_app. split.
  - apply Forall_forall. intros f I. pose proof (each_ok m) as F. rewrite Forall_forall in F. apply F. eapply Permutation_in; [apply first_perm|exact I].
  - rewrite Forall_map. eapply Forall_impl; [|exact Pk]. apply picture_ok.
Qed.
Lemma carries_kind : forall gi f, carries custom gi f -> (forall p, f <> picture_frame p) /\ is_root f = false.
Proof. intros gi f C. destruct C; split; try reflexivity; intros q E; discriminate. Qed.
Lemma each_kind : Forall (fun f => (forall p, f <> picture_frame p) /\ is_root f = false) fs.
Proof. clear - K. induction K as [|gi f gs' fs' C K' IH]; [constructor|]. constructor; [eapply carries_kind; eauto|exact (IH K')]. Qed.
Lemma identity_whole : forall f h, identity_of f = IWhole h -> f = h.
Proof. intros f h E. unfold identity_of in E. destruct (in_names _ _); [discriminate|]. destruct f; inversion E; auto. Qed.
Lemma saved_list : list_ok false l.
Proof.
  assert (EK : Forall (fun f => (forall p, f <> picture_frame p) /\ is_root f = false) first).
  { apply Forall_forall. intros f I. pose proof each_kind as F. rewrite Forall_forall in F. apply F. eapply Permutation_in; [apply first_perm|exact I]. }
  split.
  - rewrite (map_ext _ (fun f => f) restored_same l), map_id, saved_eq, map_app, map_map. apply NoDup_app2.
    + eapply Permutation_NoDup; [|exact N1]. apply Permutation_map. symmetry. apply first_perm.
    + change (NoDup (map (fun p => IWhole (picture_frame p)) ps)). apply FinFun.Injective_map_NoDup; auto. intros a b E. inversion E. auto.
    + intros x I J. apply in_map_iff in I as (f & <- & I). apply in_map_iff in J as (p & E & _). symmetry in E. change (identity_of (picture_frame p)) with (IWhole (picture_frame p)) in E.
      apply identity_whole in E. rewrite Forall_forall in EK. now apply (proj1 (EK f I) p).
  - assert (Z : filter is_root l = []).
    { rewrite saved_eq, filter_app. assert (F1 : filter is_root first = []) by (clear - EK; induction EK as [|f x (_ & R) _ IH]; auto; cbn [filter]; now rewrite R). rewrite F1. clear. induction ps; auto. }
    rewrite Z. vm_compute. discriminate.
Qed.
Lemma pictures_split : forall qs, map (split_frame custom) (map picture_frame qs) = map (fun p => mkSplit [] [p] None) qs.
Proof. intro qs. rewrite map_map. reflexivity. Qed.
Lemma saved_split : forall preserve, exists gs', Permutation gs' gs /\ to_tag custom preserve (mkT V4 NO_FLAGS l) = mkTag Id3v2 ps (concat gs') None.
Proof.
  intro preserve. destruct (carried custom _ _ K) as (C & E & M). exists (map (its custom) first). split.
  - transitivity (map (its custom) fs). apply Permutation_map, first_perm. now rewrite M.
  - assert (CF : Forall (canonical custom) first). { apply Forall_forall. intros f I. rewrite Forall_forall in C. apply C. eapply Permutation_in; [apply first_perm|exact I]. }
    destruct (split_canonical custom first CF) as (S1 & S2 & S3). unfold to_tag, split_tag. cbn [t_frames with_frames]. rewrite saved_eq, map_app, pictures_split.
    assert (Q1 : forall qs, TagModel.filter_map sp_left (map (fun p => mkSplit [] [p] None) qs) = []) by (induction qs; auto).
    assert (Q2 : forall qs, flat_map sp_pictures (map (fun p => mkSplit [] [p] None) qs) = qs) by (induction qs as [|q qs IH]; auto; cbn; now rewrite IH).
    assert (Q3 : forall qs, flat_map sp_items (map (fun p => mkSplit [] [p] None) qs) = []) by (induction qs; auto).
    assert (FA : forall a b, TagModel.filter_map sp_left (a ++ b) = TagModel.filter_map sp_left a ++ TagModel.filter_map sp_left b).
    { induction a as [|x a IH]; intro b; auto. cbn [app TagModel.filter_map]. rewrite IH. destruct (sp_left x); reflexivity. }
    rewrite FA, !flat_map_app, S1, S2, S3, Q1, Q2, Q3, app_nil_r. cbn [app t_type t_pictures t_items]. unfold with_frames. cbn [t_frames empty negb]. rewrite andb_false_r. rewrite flat_map_concat_map. reflexivity.
Qed.
End Saved.

(** ** The tag in the file *)
Lemma created : forall w inflate o l tag, w_v23 w = false -> fo_cover o = true -> l <> [] -> Forall (frame_ok false (fo_mode o)) l -> list_ok false l ->
  create_tag w NO_FLAGS l = Ok tag -> lenN tag < 2 ^ 32 ->
  exists t, vtag_ok inflate o t /\ vtag_bytes t = tag /\ tg_parsed t = mkT V4 NO_FLAGS l /\ tg_footer t = false.
Proof.
  intros w inflate o l tag V C NE F L E Hl.
  assert (FO : tag_flags_ok (w_v23 w) NO_FLAGS) by (rewrite V; repeat split; discriminate).
  destruct (tag_shape w NO_FLAGS l tag FO NE E Hl) as (fl & z & body & Et & Hz & F4 & F1 & Lb). rewrite V in *. cbn [tf_footer NO_FLAGS] in Lb. rewrite N.add_0_r in Lb.
  destruct (C139_tag w inflate o NO_FLAGS l tag [] V C FO NE F L E Hl) as (h & body' & A & _ & P). rewrite app_nil_r in A, P. change (footer w NO_FLAGS tag) with (@nil N) in P.
  exists (mkVT 4 0 fl z body (mkT V4 NO_FLAGS l)). assert (TF : tg_footer (mkVT 4 0 fl z body (mkT V4 NO_FLAGS l)) = false) by (unfold tg_footer; cbn [tg_major tg_flags]; now rewrite F1).
  split; [|split; [|split]]; auto.
  unfold vtag_ok. cbn [tg_major tg_size tg_flags tg_content tg_parsed]. split; auto. split; auto. split; auto. split; auto.
  rewrite Et, parse_hdr in A by auto. rewrite F4 in A. change (4 =? 2) with false in A. change (4 =? 3) with false in A. change (4 =? 4) with true in A. cbv iota in A. cbn [is_v2 negb andb] in A. injection A as <- <-.
  unfold tg_header. rewrite TF. unfold tg_version. cbn [tg_major tg_flags tg_size]. rewrite F1 in P. exact P.
Qed.
(** ** What is in the file before: the audio (with what follows it), behind an old tag or alone *)
Inductive holds_audio (window : N) (audio : bytes) : bytes -> Prop :=
| ha_tag : forall junk major minor flags n body, n < 2 ^ 32 -> (major = 2 \/ major = 3 \/ major = 4) -> flag flags 0x40 = false ->
    lenN body = unsynch32 n + (if negb (major =? 2) && flag flags 0x10 then 10 else 0) ->
    (forall p q, junk ++ $"ID3" = p ++ $"ID3" ++ q -> p = junk) -> lenN junk + 3 <= window ->
    holds_audio window audio (junk ++ hdr_bytes major minor flags n ++ body ++ audio)
| ha_bare : (forall p q, takeN window audio <> p ++ $"ID3" ++ q) -> holds_audio window audio audio.
Lemma saved_front : forall w window l audio data log, holds_audio window audio data -> save_id3v2 w window NO_FLAGS l data = Ok log ->
  exists tag, create_tag w NO_FLAGS l = Ok tag /\ apply_log data log = tag ++ audio.
Proof. intros w window l audio data log H S. destruct H. - eapply C148_replaced; eauto. - eapply C148_added; eauto. Qed.
Lemma end_kept : forall T A v1, ApeThm2.file_end A v1 -> (v1 = [] -> 128 <= lenN A) -> ApeThm2.file_end (T ++ A) v1.
Proof.
  intros T A v1 [[-> H]|H] L; [left|now right]. split; auto. intros _. specialize (L eq_refl). rewrite lenN_app, dropN_app_ge by lia. replace (lenN T + lenN A - 128 - lenN T) with (lenN A - 128) by lia. auto.
Qed.
Lemma old_kept : forall T A old, ApeThm2.old_tag A old -> 32 <= lenN A -> ApeThm2.old_tag (T ++ A) old.
Proof.
  intros T A old [[-> H]|H] L; [left|now right]. split; auto. rewrite lenN_app, dropN_app_ge by lia. replace (lenN T + lenN A - 32 - lenN T) with (lenN A - 32) by lia. auto.
Qed.

Section File.
Variables (custom : provider) (order : frames -> frames) (gs : list (list tag_item)) (fs : list frame) (ps : list picture).
(** the tag that is saved *)
Definition generic : gtag := mkTag Id3v2 ps (concat gs) None.
Definition id3_fits : Prop :=
  Forall2 (carries custom) gs fs /\ NoDup (map identity_of fs) /\ one_people fs /\ Forall storable (concat gs) /\ NoDup ps /\ Forall apic_ok ps /\ (gs <> [] \/ ps <> []).
(** the one that is read *)
Definition id3_again (t : id3v2_tag) : Prop :=
  forall preserve, exists gs', Permutation gs' gs /\ to_tag custom preserve t = mkTag Id3v2 ps (concat gs') None.
End File.
Lemma fits_saved : forall custom order gs fs ps w inflate o tag, (forall l, Permutation (order l) l) -> (forall st, rate custom Id3v2 st < 256) -> id3_fits custom gs fs ps ->
  w_v23 w = false -> fo_cover o = true -> create_tag w NO_FLAGS (tag_frames order custom (generic gs ps)) = Ok tag -> lenN tag < 2 ^ 32 ->
  exists t, vtag_ok inflate o t /\ vtag_bytes t = tag /\ id3_again custom gs ps (tg_parsed t) /\ tg_footer t = false.
Proof.
  intros custom order gs fs ps w inflate o tag Or Rb (K & N1 & O1 & St & N2 & Pk & NE) V C E L.
  destruct (created w inflate o (tag_frames order custom (generic gs ps)) tag V C) as (t & A & B & D & F); auto.
  - intro Z. apply app_eq_nil in Z as [Z1 Z]. apply app_eq_nil in Z as [_ Z2]. destruct NE as [NE|NE].
    + pose proof (first_perm custom order gs fs Or K N1 O1 St) as P. change (t_items (generic gs ps)) with (concat gs) in Z1. rewrite Z1 in P. apply Permutation_nil in P. subst fs. inversion K. subst. contradiction.
    + change (map picture_frame ps = []) in Z2. destruct ps; [contradiction|discriminate].
  - apply (saved_ok custom order gs fs ps); auto.
  - apply (saved_list custom order gs fs ps); auto.
  - exists t. split; auto. split; auto. split; auto. rewrite D. intro preserve. apply (saved_split custom order gs fs ps); auto.
Qed.

Theorem C241_mpeg : forall custom order gs fs ps w window inflate o m x l v1t data log,
  (forall l, Permutation (order l) l) -> (forall st, rate custom Id3v2 st < 256) -> id3_fits custom gs fs ps -> w_v23 w = false ->
  mo_tags o = true -> fo_cover (mo_frames o) = true ->
  mfile_ok inflate o m -> mx_zeros m = 0%nat -> mx_tags m = [] -> mx_frames m = x :: l -> v1_of o (mx_v1 m) v1t -> 128 <= lenN (audio_of (mx_frames m)) ->
  holds_audio window (file_bytes m) data ->
  save_id3v2 w window NO_FLAGS (tag_frames order custom (generic gs ps)) data = Ok log -> lenN (apply_log data log) < 2 ^ 32 ->
  (mo_props o = false -> exists f, mpeg_read inflate o (apply_log data log) = Ok f) /\
  forall f, mpeg_read inflate o (apply_log data log) = Ok f -> (exists t, mf_id3v2 f = Some t /\ id3_again custom gs ps t) /\ mf_id3v1 f = v1t.
Proof.
  intros custom order gs fs ps w window inflate o m x l v1t data log Or Rb F V T C OK Z TG EF V1 LA H S L.
  destruct (saved_front _ _ _ _ _ _ H S) as (tag & E & A). rewrite A in *. assert (LT : lenN tag < 2 ^ 32) by (rewrite lenN_app in L; lia).
  destruct (fits_saved custom order gs fs ps w inflate (mo_frames o) tag Or Rb F V C E LT) as (t & VO & VB & AG & NF).
  set (m' := mkFile 0 [] [t] (mx_frames m) (mx_ape m) (mx_v1 m)).
  assert (FT : mx_foot m = []) by (destruct OK as [_ OF _ _ _ _ _]; rewrite TG in OF; exact OF).
  assert (TM : through m = audio_of (mx_frames m)) by (unfold through, before; rewrite Z, TG; reflexivity).
  assert (TM' : through m' = tag ++ through m) by (rewrite TM; unfold through, before, m'; cbn [mx_zeros mx_foot mx_tags mx_frames repeat front_of flat_map app]; rewrite VB, app_nil_r; reflexivity).
  assert (FB : file_bytes m' = tag ++ file_bytes m) by (unfold file_bytes; rewrite TM', <- app_assoc; reflexivity).
  assert (OK' : mfile_ok inflate o m').
  { destruct OK as [OT OF OS OR OA OV OD]. constructor; auto.
    - cbn [mx_tags m']. constructor; auto.
    - cbn [mx_tags m' mx_foot foot_ok]. rewrite NF. split; auto.
    - rewrite TM'. cbn [m' mx_ape]. apply old_kept; auto. rewrite TM. lia.
    - rewrite FB. cbn [m' mx_v1]. apply end_kept; auto. intros _. unfold file_bytes. rewrite lenN_app, TM. lia. }
  rewrite <- FB. destruct (read_main inflate o m' x l v1t OK' EF V1) as (ape & _ & _ & R). cbv zeta in R. rewrite T in R. split.
  - intro P. rewrite P in R. eauto.
  - intros f RF. rewrite RF in R. assert (X : mf_id3v2 f = merged [t] /\ mf_id3v1 f = v1t).
    { destruct (mo_props o).
      - destruct (read_exact 32 _) as [[b r]|]; [|discriminate R]. destruct (vbr_read b) as [vbr| |]; cbn [bind] in R; try discriminate R. destruct (read_properties _ _ _ _ _ _); cbn [bind] in R; try discriminate R. injection R as ->. auto.
      - injection R as ->. auto. }
    destruct X as [X1 X2]. split; auto. exists (tg_parsed t). auto.
Qed.
Print Assumptions C241_mpeg.
(** AAC: the same, with the conditions under which the reader finds the frames *)
Theorem C241_aac : forall custom order gs fs ps w window inflate rounds o m x l v1t data log,
  (forall l, Permutation (order l) l) -> (forall st, rate custom Id3v2 st < 256) -> id3_fits custom gs fs ps -> w_v23 w = false ->
  fo_cover (mo_frames o) = true ->
  afile_ok inflate o m -> ax_zeros m = 0%nat -> ax_tags m = [] -> ax_frames m = x :: l -> v1_of o (ax_v1 m) v1t -> 128 <= lenN (afile_bytes m) ->
  (length l <= rounds)%nat -> (mo_props o = true -> 1024 * 1024 + 8 * 1024 <= 8 * alength x * arate (fst x)) ->
  holds_audio window (afile_bytes m) data ->
  save_id3v2 w window NO_FLAGS (tag_frames order custom (generic gs ps)) data = Ok log -> lenN (apply_log data log) < 2 ^ 32 ->
  exists f t, aac_read inflate rounds o (apply_log data log) = Ok f /\ af_id3v2 f = Some t /\ id3_again custom gs ps t /\ af_id3v1 f = v1t.
Proof.
  intros custom order gs fs ps w window inflate rounds o m x l v1t data log Or Rb F V C OK Z TG EF V1 LA RD B H S L.
  destruct (saved_front _ _ _ _ _ _ H S) as (tag & E & A). rewrite A in *. assert (LT : lenN tag < 2 ^ 32) by (rewrite lenN_app in L; lia).
  destruct (fits_saved custom order gs fs ps w inflate (mo_frames o) tag Or Rb F V C E LT) as (t & VO & VB & AG & NF).
  set (m' := mkAFile 0 [] [t] (ax_junk m) (ax_frames m) (ax_post m) (ax_v1 m)).
  assert (FB : afile_bytes m' = tag ++ afile_bytes m).
  { unfold afile_bytes, ax_before, m'. rewrite Z, TG. cbn [ax_zeros ax_foot ax_tags ax_junk ax_frames ax_post ax_v1 repeat front_of flat_map app]. rewrite VB, app_nil_r. reflexivity. }
  assert (OK' : afile_ok inflate o m').
  { destruct OK as [OT OF OJ OS OE OV OD]. constructor; auto.
    - cbn [ax_tags m']. constructor; auto.
    - cbn [ax_tags m' ax_foot foot_ok]. rewrite NF. split; auto.
    - destruct OJ as (J1 & J2 & J3 & J4). repeat (split; auto).
    - rewrite FB. cbn [m' ax_v1]. apply end_kept; auto. }
  rewrite <- FB in *. destruct (C180_tags_partial inflate rounds o m' x l v1t OK' EF V1 L RD B) as (f & R & T2 & T1). exists f, (tg_parsed t). auto.
Qed.
Print Assumptions C241_aac.

(** ** Examples *)
Definition mpeg_ex : mfile := mkFile 0 [] [] [frame0; frame0; frame0; frame0; frame0; frame0] [] [].
Definition items_ex : list (list tag_item) :=
  [[txt KTrackTitle ($"Title")]; [txt KTrackArtist ($"A"); txt KTrackArtist ($"B")]; [txt KTrackNumber ($"3"); txt KTrackTotal ($"12")];
   [mkItem ($"eng") ($"note") ItemKeyModel.KComment (VText ($"Hello"))]; [txt KProducer ($"P"); txt KMixEngineer ($"M")]; [txt KMusicBrainzRecordingId ($"abc")]].
Definition frames_ex : list frame :=
  [text_frame ($"TIT2") ($"Title"); text_frame ($"TPE1") ($"A" ++ [0] ++ $"B"); text_frame ($"TRCK") ($"3/12"); comment_frame ($"eng") ($"note") ($"Hello");
   tipl_frame [($"producer", $"P"); ($"mix", $"M")]; ufid_frame MUSICBRAINZ ($"abc")].
Definition cover_ex : picture := mkPic PCoverFront (Some Png) (Some ($"front")) [1; 2; 3].
Definition opts_ex : mopts := mkMO (mkFO BestAttempt true true) true false 1024.
Definition w_ex : wopts := mkW false false false (Some 20).
Definition saved_to (data : bytes) (g : gtag) : option bytes :=
  match save_id3v2 w_ex 1024 NO_FLAGS (tag_frames id_order DefaultProvider g) data with Ok log => Some (apply_log data log) | _ => None end.
Definition mpeg_roundtrip (g : gtag) : option gtag :=
  match saved_to (file_bytes mpeg_ex) g with
  | Some d => match mpeg_read MpegThm.no_inflate opts_ex d with Ok f => option_map (to_tag DefaultProvider true) (mf_id3v2 f) | _ => None end
  | None => None
  end.
Example C241_ex : mpeg_roundtrip (generic items_ex [cover_ex]) = Some (mkTag Id3v2 [cover_ex] (concat
  [[txt KMusicBrainzRecordingId ($"abc")]; [txt KProducer ($"P"); txt KMixEngineer ($"M")]; [txt KTrackTitle ($"Title")]; [txt KTrackArtist ($"A"); txt KTrackArtist ($"B")];
   [mkItem ($"eng") ($"note") ItemKeyModel.KComment (VText ($"Hello"))]; [txt KTrackNumber ($"3"); txt KTrackTotal ($"12")]]) None).
Proof. vm_compute. reflexivity. Qed.
Lemma nn : forall s, forallb (fun c => negb (c =? 0)) s = true -> no_nul s.
Proof. intros s H I. rewrite forallb_forall in H. specialize (H 0 I). discriminate. Qed.
Lemma st_text : forall k s, desc_okb s = true -> s <> [] -> existsb (ik_eqb k) DATES = false -> existsb (ik_eqb k) [KPopularimeter; ItemKeyModel.KComment; KUnsyncLyrics] = false -> storable (txt k s).
Proof.
  intros k s H NE D P. destruct (desc_okb_ok UTF8 s (or_intror eq_refl) H) as [A [B _]].
  assert (Q : forall ds, existsb (ik_eqb k) ds = false -> ~ In k ds). { intros ds X I. assert (Y : existsb (ik_eqb k) ds = true) by (apply existsb_exists; exists k; split; auto; now apply ik_eqb_eq). congruence. }
  apply Q in P. split; [|split; [constructor|split; [intros []|split]]].
  - exists s. split; auto. split; auto. split; auto. split. intros I. rewrite Forall_forall in B. now apply (B 0 I). intros E. change (k = KPopularimeter) in E. exfalso. apply P. subst k. now left.
  - now apply Q.
  - intros [I|[I|[]]]; exfalso; apply P; cbn in I; subst k; cbn; auto.
Qed.
Example C241_fits : id3_fits DefaultProvider items_ex frames_ex [cover_ex] /\ (forall st, rate DefaultProvider Id3v2 st < 256).
Proof.
  split; [|intros []; vm_compute; reflexivity]. unfold id3_fits. split; [|split; [|split; [|split; [|split; [|split]]]]].
  - unfold items_ex, frames_ex. constructor; [|constructor; [|constructor; [|constructor; [|constructor; [|constructor; [|constructor]]]]]].
    + apply (car_text _ KTrackTitle ($"TIT2") [$"Title"]). vm_compute; tauto. discriminate. constructor; [|constructor]. apply nn; reflexivity.
    + apply (car_text _ KTrackArtist ($"TPE1") [$"A"; $"B"]). vm_compute; tauto. discriminate. constructor; [|constructor; [|constructor]]; apply nn; reflexivity.
    + apply (car_pair _ KTrackNumber KTrackTotal ($"TRCK") 3 12). vm_compute; tauto. vm_compute; discriminate. vm_compute; discriminate.
    + apply car_comment. apply nn; reflexivity.
    + apply (car_people _ [((KProducer, $"producer"), $"P"); ((KMixEngineer, $"mix"), $"M")]). discriminate. constructor; [|constructor; [|constructor]]; vm_compute; tauto.
    + apply car_recording. repeat constructor.
  - unfold frames_ex. cbn [map]. repeat (constructor; [vm_compute; intuition discriminate|]). constructor.
  - vm_compute. lia.
  - unfold items_ex. cbn [concat app]. do 5 (constructor; [apply st_text; [reflexivity|discriminate|reflexivity|reflexivity]|]). constructor; [|do 3 (constructor; [apply st_text; [reflexivity|discriminate|reflexivity|reflexivity]|]); constructor].
    split; [|split; [|split; [|split]]].
    + exists ($"Hello"). destruct (desc_okb_ok UTF8 ($"Hello") (or_intror eq_refl) eq_refl) as [A _]. split; [reflexivity|]. split; auto. split; [discriminate|]. split; [apply nn; reflexivity|]. discriminate.
    + exact (proj1 (desc_okb_ok UTF8 ($"note") (or_intror eq_refl) eq_refl)).
    + apply nn; reflexivity.
    + vm_compute. intuition discriminate.
    + intros _. split; [reflexivity|]. repeat (constructor; [right; vm_compute; split; discriminate|]). constructor.
  - repeat constructor; intros [].
  - constructor; [|constructor]. split; [|split; [|split]].
    + split; [discriminate|]. split; [|reflexivity]. apply Forall_forall. intros c I. assert (X : forallb (fun c => (0 <? c) && (c <? 128)) (mime_as_str Png) = true) by reflexivity. rewrite forallb_forall in X. specialize (X c I). lia.
    + reflexivity.
    + reflexivity.
    + cbn. split; [discriminate|]. split; [exact (proj1 (desc_okb_ok UTF8 ($"front") (or_intror eq_refl) eq_refl))|apply nn; reflexivity].
  - left. discriminate.
Qed.
Example C241_file : holds_audio 1024 (file_bytes mpeg_ex) (file_bytes mpeg_ex) /\ holds_audio 1024 (file_bytes mpeg_ex) ([7; 8] ++ hdr_bytes 3 0 0 12 ++ repeat 5 12 ++ file_bytes mpeg_ex) /\
  128 <= lenN (audio_of (mx_frames mpeg_ex)).
Proof.
  split; [|split].
  - apply ha_bare. intros p q E. assert (X : In 73 (takeN 1024 (file_bytes mpeg_ex))) by (rewrite E; apply in_or_app; right; now left).
    assert (Y : existsb (N.eqb 73) (takeN 1024 (file_bytes mpeg_ex)) = true) by (apply existsb_exists; exists 73; auto). vm_compute in Y. discriminate.
  - apply ha_tag; try reflexivity; auto; [|vm_compute; discriminate].
    intros p q E. pose proof (f_equal (@length N) E) as L. rewrite !app_length in L. cbn in L.
    destruct p as [|a [|b [|c p]]]; [discriminate E|discriminate E|cbn in E; injection E as <- <- _; reflexivity|exfalso]. destruct p as [|d [|e p]]; [discriminate E|discriminate E|]. cbn in L. lia.
  - vm_compute. discriminate.
Qed.
(** A release date is written as it is, as text; if it is no date the file cannot be read any more. *)
Theorem C241_date_refuted : exists g d, Forall (fun i => exists k s, i = txt k s /\ s <> [] /\ no_nul s /\ str_ok s) (t_items g) /\ t_companion g = None /\
  (exists f, mpeg_read MpegThm.no_inflate opts_ex (file_bytes mpeg_ex) = Ok f) /\
  saved_to (file_bytes mpeg_ex) g = Some d /\ mpeg_read MpegThm.no_inflate opts_ex d = Err MTag.
Proof.
  exists (generic [[txt KReleaseDate ($"soon")]] []). eexists. split; [|split; [reflexivity|split; [|split]]].
  - constructor; [|constructor]. exists KReleaseDate, ($"soon"). split; auto. split; [discriminate|]. split; [apply nn; reflexivity|]. exact (proj1 (desc_okb_ok UTF8 ($"soon") (or_intror eq_refl) eq_refl)).
  - eexists. vm_compute. reflexivity.
  - vm_compute. reflexivity.
  - vm_compute. reflexivity.
Qed.
Print Assumptions C241_date_refuted.
(** The second of two artists is lost if it is empty. *)
Theorem C241_empty_refuted : ~ (forall gs g, mpeg_roundtrip (generic gs []) = Some g -> Permutation (t_items g) (concat gs)).
Proof.
  intro H. specialize (H [[txt KTrackArtist ($"A"); txt KTrackArtist []]]).
  assert (E : mpeg_roundtrip (generic [[txt KTrackArtist ($"A"); txt KTrackArtist []]] []) = Some (mkTag Id3v2 [] [txt KTrackArtist ($"A")] None)) by (vm_compute; reflexivity).
  specialize (H _ E). clear E. apply Permutation_length in H. discriminate H.
Qed.
Print Assumptions C241_empty_refuted.
(** Locators are not written. *)
Theorem C241_locator_refuted : ~ (forall gs g, Forall2 (carries DefaultProvider) gs (map (fun _ => url_frame ($"WOAF") ($"u")) gs) -> mpeg_roundtrip (generic ([txt KTrackTitle ($"T")] :: gs) []) = Some g -> Permutation (t_items g) (txt KTrackTitle ($"T") :: concat gs)).
Proof.
  intro H. specialize (H [[new_item KAudioFileUrl (VLocator ($"u"))]] (mkTag Id3v2 [] [txt KTrackTitle ($"T")] None)). cbn [map] in H.
  assert (C : Forall2 (carries DefaultProvider) [[new_item KAudioFileUrl (VLocator ($"u"))]] [url_frame ($"WOAF") ($"u")]) by (constructor; [apply car_url; vm_compute; tauto|constructor]). specialize (H C).
  assert (E : mpeg_roundtrip (generic [[txt KTrackTitle ($"T")]; [new_item KAudioFileUrl (VLocator ($"u"))]] []) = Some (mkTag Id3v2 [] [txt KTrackTitle ($"T")] None)) by (vm_compute; reflexivity).
  specialize (H E). clear E. apply Permutation_length in H. discriminate H.
Qed.
Print Assumptions C241_locator_refuted.
