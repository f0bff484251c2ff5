(** Contents of frames: written and read back. *)
From Verif Require Import BaseLemmas TextProof TextThm TimestampThm PictureThm.
From Verif Require Import FrameSpec.

Lemma list_eqb_sym : forall a b, list_eqb a b = list_eqb b a.
Proof. induction a; destruct b; cbn [list_eqb]; auto. now rewrite IHa, N.eqb_sym. Qed.

Lemma match_TW : forall A (x : N) (a b c : A),
  match x with 84 => a | 87 => b | _ => c end = if x =? 84 then a else if x =? 87 then b else c.
Proof.
  intros. destruct (N.eqb_spec x 84) as [->|H1]; auto. destruct (N.eqb_spec x 87) as [->|H2]; auto.
  destruct x as [|p]; auto.
  do 6 (destruct p as [p|p|]; try reflexivity); destruct p as [p|p|]; try reflexivity; congruence.
Qed.
Lemma dispatch : forall kids s fl v m r,
  parse_content kids (Valid s) fl v m r =
  let h := mkFH (Valid s) fl in
  match kind_of_name s with
  | KPicture => parse_picture h v r | KUserText => parse_user_text h v r | KUserUrl => parse_user_url h v r
  | KComment => parse_lang (FComment h) v r | KUnsync => parse_lang (FUnsync h) v r | KPairs => parse_key_value h v r
  | KUfid => parse_ufid h m r | KRva2 => parse_rva2 h m r | KOwne => parse_owne h r | KEtco => parse_etco h r
  | KPriv => parse_priv h r | KTime => parse_time h m r | KText => parse_text h v r | KUrl => parse_url h r
  | KPopm => parse_popm h r | KChap => parse_chap kids h v r | KCtoc => parse_ctoc kids h v r | KBin => parse_bin h r
  end.
Proof.
  intros. unfold parse_content, kind_of_name, KINDS, in_names, TIME_IDS. cbn [id_str find fst existsb].
  repeat match goal with
  | |- context [list_eqb ?c s] => rewrite (list_eqb_sym c s)
  end.
  repeat match goal with
  | |- context [list_eqb s ?c] =>
      let E := fresh "E" in destruct (list_eqb s c) eqn:E;
      [apply list_eqb_eq in E; subst s; reflexivity|]
  end.
  cbn [orb]. unfold starts. destruct s as [|x s]; auto. rewrite match_TW.
  destruct (x =? 84); auto. destruct (x =? 87); auto.
Qed.

(** *** Texts *)
Lemma encode_lossy : forall ne e s t l, (e = Latin1 -> Forall (fun c => c <= 255) s) -> encode ne e s t l = encode ne e s t false.
Proof. intros. destruct e; cbn [encode]; auto. unfold latin1_encode. now rewrite !latin1_ok by auto. Qed.
Lemma enc_text_spec : forall w e s t, str_ok s -> (e = Latin1 -> Forall (fun c => c <= 255) s) ->
  exists b, enc_text w e s t = Ok (b ++ (if t then terminator e else [])) /\ enc_bytes (w_ne w) e s b.
Proof.
  intros. destruct (encode_spec (w_ne w) e s t H H0) as (b & E & B). exists b. split; auto.
  unfold enc_text. rewrite encode_lossy, E by auto. reflexivity.
Qed.
Lemma w_enc_stored : forall w e, w_enc w e = stored (w_v23 w) e.
Proof. intros. unfold w_enc, stored. destruct (w_v23 w), e; reflexivity. Qed.
Lemma term_latin : forall e s, terminated_ok e s -> e = Latin1 -> Forall (fun c => c <= 255) s.
Proof. intros e s [_ [_ H]] ->. exact H. Qed.
Lemma text_latin : forall e s, text_ok e s -> e = Latin1 -> Forall (fun c => c <= 255) s.
Proof. intros e s (_ & _ & H) ->. exact H. Qed.

Lemma terminator_len : forall e, 0 < lenN (terminator e). Proof. intros []; reflexivity. Qed.
Lemma enc_nil : forall ne e s, str_ok s -> enc_bytes ne e s [] -> s = [] /\ e <> UTF16.
Proof.
  intros. apply enc_bytes_det in H0; auto. destruct e.
  - subst; split; congruence.
  - destruct ne; discriminate.
  - split; [|congruence]. symmetry in H0. apply flat_map_u16_nil in H0. destruct s; auto. cbn [utf16_units] in H0. unfold utf16_char in H0.
    destruct (_ <? _); discriminate.
  - split; [|congruence]. destruct s; auto. symmetry in H0. cbn [utf8_enc] in H0. apply app_eq_nil in H0 as [H0 _].
    pose proof (utf8_char_len n). rewrite H0 in H1. cbn in H1. lia.
Qed.
Lemma dec_term_bo : forall ne e s b bo rest, terminated_ok e s -> enc_bytes ne e s b -> bo = (0, 0) \/ bo = bom_bytes ne ->
  exists n bom, decode_text e true bo (b ++ terminator e ++ rest) = Ok (mkDec s n bom, rest) /\ 0 < n /\
    (e = UTF16 -> bom = bom_bytes ne).
Proof.
  intros ne e s b bo rest [S R] B Hb. pose proof R as [Hz _]. unfold decode_text. erewrite read_terminated by eauto.
  pose proof (terminator_len e).
  destruct b as [|x b'] eqn:Eb.
  - apply enc_nil in B as [-> NE]; auto. eexists _, _. split; [reflexivity|]. split; auto. congruence.
  - rewrite <- Eb in *. rewrite (decode_raw_enc ne e s b bo) by auto. cbn [bind]. rewrite recoverable_survives by auto.
    eexists _, _. split; [reflexivity|]. split. lia. intros ->. reflexivity.
Qed.
Lemma dec_term_enc : forall ne e s b rest, terminated_ok e s -> enc_bytes ne e s b ->
  exists n bom, dec_term e ((b ++ terminator e) ++ rest) = Ok (mkDec s n bom, rest) /\ 0 < n /\ (e = UTF16 -> bom = bom_bytes ne).
Proof.
  intros. destruct (dec_term_bo ne e s b (0, 0) rest H H0 (or_introl eq_refl)) as (n & bom & E & P).
  exists n, bom. split; auto. unfold dec_term. rewrite <- app_assoc, E. reflexivity.
Qed.
Lemma trim_last : forall s, last s 1 <> 0 -> trim_end_nulls s = s.
Proof. intros. symmetry. apply trim_unique. split; auto. exists O. now rewrite app_nil_r. Qed.
Lemma text_survives : forall e s, text_ok e s -> survives e s = s.
Proof.
  intros e s (S & L & H). destruct e; cbn [survives]; try now apply trim_last.
  all: rewrite filter_all; [now apply trim_last|]; eapply Forall_impl; [|exact H]; cbv beta; unfold not_bom; intros; lia.
Qed.
Lemma dec_rest_enc : forall ne e s b, text_ok e s -> enc_bytes ne e s b ->
  exists n bom, dec_rest e b = Ok (mkDec s n bom, []).
Proof.
  intros. pose proof H as (S & _). destruct (decode_unterminated ne e s b S H0) as (bom & E).
  exists (lenN b), bom. unfold dec_rest. rewrite E, text_survives by auto. reflexivity.
Qed.
Lemma verify_enc : forall e v, v <> V2 -> verify_encoding (enc_to_u8 e) v = Ok e.
Proof. intros. unfold verify_encoding. replace (is_v2 v) with false by (destruct v; cbn; congruence). destruct e; reflexivity. Qed.

(** *** Each kind *)
Section Kinds.
Variable w : wopts.
Variable v : id3v2_version.
Hypothesis NV2 : v <> V2.
Local Notation v23 := (w_v23 w).

Lemma nv2 : is_v2 v = false. Proof. destruct v; cbn; congruence. Qed.

Ltac wenc := rewrite ?w_enc_stored.
Ltac nil_app := rewrite ?app_nil_r in *.

Lemma rt_text : forall h e s, text_ok (stored v23 e) s ->
  exists b, text_bytes w e s = Ok b /\ parse_text h v b = Ok (Some (FText h (stored v23 e) s), []).
Proof.
  intros. unfold text_bytes. wenc. set (e' := stored v23 e) in *. pose proof H as (S & _).
  destruct (enc_text_spec w e' s false S (text_latin _ _ H)) as (b & -> & B). cbn [bind]. nil_app.
  eexists. split; [reflexivity|]. unfold parse_text. cbn [read_u8]. rewrite verify_enc by auto. cbn [bind].
  destruct (dec_rest_enc _ _ _ _ H B) as (n & bom & ->). reflexivity.
Qed.
Lemma bom_not_zero : forall be, bom_eqb (bom_bytes be) (0, 0) = false. Proof. intros []; reflexivity. Qed.
Lemma flat_bom : forall be us, flat_map (u16_bytes be) (0xFEFF :: us) = fst (bom_bytes be) :: snd (bom_bytes be) :: flat_map (u16_bytes be) us.
Proof. intros [] us; reflexivity. Qed.
Lemma rt_user_text : forall h e d c, terminated_ok (stored v23 e) d -> text_ok (stored v23 e) c ->
  exists b, user_bytes w e d c = Ok b /\ parse_user_text h v b = Ok (Some (FUserText h (stored v23 e) d c), []).
Proof.
  intros. unfold user_bytes. wenc. set (e' := stored v23 e) in *. pose proof H0 as (S & L & _). pose proof H as (Sd & _).
  destruct (enc_text_spec w e' d true Sd (term_latin _ _ H)) as (bd & -> & Bd).
  destruct (enc_text_spec w e' c false S (text_latin _ _ H0)) as (b & -> & B). cbn [bind]. nil_app.
  eexists. split; [reflexivity|]. unfold parse_user_text. cbn [read_u8]. rewrite verify_enc by auto. cbn [bind].
  destruct (dec_term_enc _ _ _ _ b H Bd) as (n & bom & -> & Hn & Hb). cbn [bind d_content d_bom].
  destruct (encoding_eqb e' UTF16) eqn:E.
  - assert (e' = UTF16) as E' by (destruct e'; try discriminate; auto). clearbody e'. subst e'.
    pose proof (enc_bytes_det _ _ _ _ S B) as Eb. cbv beta iota in Eb. subst b.
    rewrite flat_bom. cbv beta iota zeta.
    match goal with |- bind ?X _ = _ => assert (X = Ok (w_ne w)) as -> by (destruct (w_ne w); reflexivity) end.
    rewrite <- flat_bom.
    cbn [bind].
    destruct H0 as (_ & _ & Hc).
    rewrite utf16_decode_bytes_enc with (s := c); auto.
    + rewrite trim_last by auto. reflexivity.
    + constructor. lia. now apply utf16_units_bound.
    + cbn [filter]. change (not_bom 0xFEFF) with false. cbv iota. apply filter_all.
      eapply Forall_impl; [|exact (utf16_units_nobom _ S Hc)]. unfold not_bom; cbv beta; intros; lia.
  - destruct (dec_rest_enc _ _ _ _ H0 B) as (n' & bom' & E2). rewrite E2. destruct e'; try discriminate; reflexivity.
Qed.
Lemma utf8_ascii' : forall s, Forall (fun c => c < 128) s -> utf8_enc s = s.
Proof.
  induction s; intros; cbn [utf8_enc]; auto. apply Forall_cons_iff in H as [H1 H2]. rewrite IHs by auto.
  unfold utf8_char. replace (a <? 128) with true by lia. reflexivity.
Qed.
Lemma ascii_ok : forall s, Forall (fun c => c < 128) s -> str_ok s.
Proof. intros. eapply Forall_impl; [|exact H]. cbv beta. intros. apply scalar_bound. lia. Qed.
Lemma rt_user_url : forall h e d c, terminated_ok (stored v23 e) d ->
  (stored v23 e = Latin1 /\ text_ok Latin1 c \/ stored v23 e = UTF8 /\ Forall (fun c => c < 128) c /\ last c 1 <> 0) ->
  exists b, user_bytes w e d c = Ok b /\ parse_user_url h v b = Ok (Some (FUserUrl h (stored v23 e) d c), []).
Proof.
  intros. unfold user_bytes. wenc. set (e' := stored v23 e) in *. pose proof H as (Sd & _).
  destruct (enc_text_spec w e' d true Sd (term_latin _ _ H)) as (bd & -> & Bd).
  assert (str_ok c /\ text_ok Latin1 c /\ enc_text w e' c false = Ok c) as (S & Hc & ->).
  { destruct H0 as [[-> Hc]|[-> [Ha L]]].
    - pose proof Hc as (S & _ & F). split; auto. split; auto. unfold enc_text. cbn [encode]. unfold latin1_encode. rewrite latin1_ok; auto.
    - pose proof (ascii_ok _ Ha). split; auto. split.
      + split; auto. split; auto. eapply Forall_impl; [|exact Ha]. cbv beta. intros. lia.
      + unfold enc_text. cbn [encode as_ferr]. now rewrite utf8_ascii', app_nil_r. }
  cbn [bind]. eexists. split; [reflexivity|]. unfold parse_user_url. cbn [read_u8]. rewrite verify_enc by auto. cbn [bind].
  destruct (dec_term_enc _ _ _ _ c H Bd) as (n & bom & -> & _). cbn [bind d_content].
  destruct (dec_rest_enc true Latin1 c c Hc) as (n' & bom' & ->). { split; auto. apply Hc. } reflexivity.
Qed.
Lemma alpha_letter : forall c, letter c -> is_alpha c = true.
Proof. unfold letter, is_alpha, is_upper. intros. lia. Qed.
Lemma read_unterm16 : forall be us, Forall (fun u => u < 65536) us -> Forall (fun u => u <> 0) us ->
  read_to_nul16 (flat_map (u16_bytes be) us) = (flat_map (u16_bytes be) us, 0, []).
Proof.
  induction us; intros; cbn [flat_map app]; auto. apply Forall_cons_iff in H as [A1 A2]. apply Forall_cons_iff in H0 as [B1 B2].
  destruct be; cbn [u16_bytes app read_to_nul16]; rewrite IHus by auto;
  match goal with |- context [if ?b then _ else _] => destruct b eqn:E; try lia end; reflexivity.
Qed.
Lemma maybe_bom_end : forall be dflt s, str_ok s -> recoverable UTF16 s ->
  exists n, utf16_decode_terminated_maybe_bom (flat_map (u16_bytes be) (0xFEFF :: utf16_units s)) dflt = Ok (s, n, []).
Proof.
  intros be dflt s Hs [Hz Hb]. pose proof (utf16_units_bound s Hs) as B. pose proof (utf16_units_nonzero s Hz) as Z.
  pose proof (utf16_units_nobom s Hs Hb) as NB.
  assert (D : utf16_decode_bytes (flat_map (u16_bytes be) (utf16_units s)) be = Ok s).
  { rewrite utf16_decode_bytes_enc with (s := s); auto. now rewrite trim_id.
    apply filter_all. eapply Forall_impl; [|exact NB]. unfold not_bom; cbv beta; intros; lia. }
  unfold utf16_decode_terminated_maybe_bom. cbn [read_to_terminator].
  rewrite read_unterm16; [|constructor; [lia|auto]|constructor; [lia|auto]].
  rewrite flat_bom. destruct be; cbn [bom_bytes fst snd].
  - change ((254 =? 255) && (255 =? 254)) with false. change ((254 =? 254) && (255 =? 255)) with true. cbv iota.
    rewrite D. cbn [bind]. eauto.
  - change ((255 =? 255) && (254 =? 254)) with true. cbv iota. rewrite D. cbn [bind]. eauto.
Qed.
Lemma rt_lang : forall mk e l d c, lang_ok (stored v23 e) l d c ->
  exists b, lang_bytes w e l d c = Ok b /\ parse_lang mk v b = Ok (Some (mk (stored v23 e) l d c), []).
Proof.
  intros mk e l d c (Ll & La & Hd & Hc). unfold lang_bytes. wenc. set (e' := stored v23 e) in *.
  assert (existsb (fun c => negb (is_alpha c)) l = false) as ->.
  { clear - La. induction La; cbn [existsb]; auto. rewrite alpha_letter, IHLa by auto. reflexivity. }
  pose proof Hd as (Sd & _).
  destruct (enc_text_spec w e' d true Sd (term_latin _ _ Hd)) as (bd & -> & Bd).
  assert (str_ok c /\ (e' = Latin1 -> Forall (fun c => c <= 255) c)) as (Sc & Lc).
  { destruct (encoding_eqb e' UTF16). split. apply Hc. now apply term_latin. split. apply Hc. now apply text_latin. }
  destruct (enc_text_spec w e' c false Sc Lc) as (b & -> & B). cbn [bind]. nil_app.
  eexists. split; [reflexivity|]. unfold parse_lang. cbn [read_u8]. rewrite verify_enc by auto. cbn [bind].
  rewrite read_exact_app by (unfold lenN; rewrite Ll; reflexivity). cbn [from_opt bind].
  destruct (dec_term_enc _ _ _ _ b Hd Bd) as (n & bom & -> & Hn & Hb). cbn [bind d_content d_bom].
  destruct (encoding_eqb e' UTF16) eqn:E.
  - assert (e' = UTF16) as E' by (destruct e'; try discriminate; auto). clearbody e'. subst e'. rewrite Hb by auto.
    match goal with |- (match ?X with _ => _ end) = _ => assert (X = Some (w_ne w)) as -> by (destruct (w_ne w); reflexivity) end.
    apply enc_bytes_det in B; auto. cbv beta iota in B. subst b. destruct Hc as (_ & Rc).
    destruct (maybe_bom_end (w_ne w) (w_ne w) c Sc Rc) as (k & ->). reflexivity.
  - destruct (dec_rest_enc _ _ _ _ Hc B) as (n' & bom' & E2).
    destruct e'; try discriminate; rewrite E2; reflexivity.
Qed.
Lemma read_unterm : forall t, Forall (fun b => b <> 0) t -> read_to_nul t = (t, 0, []).
Proof.
  induction t; intros; cbn [read_to_nul]; auto. apply Forall_cons_iff in H as [H1 H2]. rewrite IHt by auto.
  destruct (N.eqb_spec a 0); congruence.
Qed.
Lemma rt_url : forall h c, terminated_ok Latin1 c -> c <> [] ->
  exists b, url_bytes w c = Ok b /\ b <> [] /\ parse_url h b = Ok (Some (FUrl h c), []).
Proof.
  intros h c (S & Z & F) NE. unfold url_bytes. destruct (enc_text_spec w Latin1 c false S (fun _ => F)) as (b & -> & -> & _). nil_app.
  exists c. split; auto. split; auto. unfold parse_url, dec_term, decode_text. cbn [read_to_terminator]. rewrite read_unterm by auto.
  destruct c; [congruence|]. cbn [decode_raw bind as_ferr d_read d_content]. rewrite lenN_cons.
  destruct (N.eqb_spec (1 + lenN c + 0) 0); [lia|]. unfold latin1_decode. rewrite trim_id by auto. reflexivity.
Qed.
Lemma rt_latin : forall s rest, terminated_ok Latin1 s ->
  exists n, enc_text w Latin1 s true = Ok (s ++ [0]) /\ dec_term Latin1 ((s ++ [0]) ++ rest) = Ok (mkDec s n (0, 0), rest) /\ 0 < n.
Proof.
  intros s rest (S & Z & F). destruct (enc_text_spec w Latin1 s true S (fun _ => F)) as (b & E & -> & _).
  exists (lenN s + 1). split; auto. split; [|lia]. unfold dec_term, decode_text. cbn [read_to_terminator]. rewrite <- app_assoc. cbn [app].
  rewrite read_to_nul_app by auto. destruct s; [reflexivity|]. cbn [decode_raw bind]. unfold latin1_decode. rewrite trim_id by auto.
  reflexivity.
Qed.
Lemma rt_picture : forall h e p,
  match p_mime p with Some m => mime_ok m | None => True end -> pic_as_u8 (p_type p) < 256 ->
  pic_from_u8 (pic_as_u8 (p_type p)) = p_type p ->
  match p_desc p with Some d => d <> [] /\ terminated_ok (stored v23 e) d | None => True end ->
  picture_bytes w e p = Err ETooMuch \/
  exists b, picture_bytes w e p = Ok b /\ parse_picture h v b = Ok (Some (FPicture h (stored v23 e) p), []).
Proof.
  intros h e [ty mi de da]. cbn [p_mime p_desc p_type p_data]. intros Hm _ Ht Hd. unfold picture_bytes. wenc. set (e' := stored v23 e) in *.
  cbn [p_mime p_desc p_type p_data].
  set (d := match de with Some s => s | None => [] end).
  assert (D : terminated_ok e' d). { subst d. destruct de. apply Hd. split; [constructor|]. split; [constructor|]. destruct e'; auto; constructor. }
  pose proof D as (Sd & _).
  destruct (enc_text_spec w e' d true Sd (term_latin _ _ D)) as (bd & -> & Bd). cbn [bind].
  destruct (_ <? _); [now left|right]. eexists. split; [reflexivity|].
  unfold parse_picture. cbn [read_u8 from_opt bind]. destruct (enc_of_u8 (enc_to_u8 e')) eqn:Ee; [|destruct e'; discriminate].
  assert (e0 = e') as -> by (destruct e'; cbn in Ee; congruence). cbn [from_opt bind]. rewrite nv2.
  set (ms := match mi with Some m => mime_as_str m | None => [] end).
  assert (M : terminated_ok Latin1 ms /\ utf8_enc ms = ms).
  { subst ms. destruct mi as [m|].
    - destruct Hm as (_ & F & _). assert (A : Forall (fun c => c < 128) (mime_as_str m)) by (eapply Forall_impl; [|exact F]; cbv beta; intros; lia).
      split; [|now apply utf8_ascii']. split. now apply ascii_ok. split.
      eapply Forall_impl; [|exact F]; cbv beta; intros; lia. eapply Forall_impl; [|exact A]; cbv beta; intros; lia.
    - split; auto. split; [constructor|]. split; constructor. }
  destruct M as (M & MU).
  replace (match mi with Some m => utf8_enc (mime_as_str m) | None => [] end) with ms by (subst ms; destruct mi; congruence).
  match goal with |- context [dec_term Latin1 (ms ++ 0 :: ?r)] => destruct (rt_latin ms r M) as (n & _ & E & _);
    replace (ms ++ 0 :: r) with ((ms ++ [0]) ++ r) by (rewrite <- app_assoc; reflexivity) end.
  rewrite E. cbn [bind d_content read_u8 from_opt].
  destruct (dec_term_enc _ _ _ _ da D Bd) as (n' & bom & -> & _). cbn [bind d_content]. do 4 f_equal.
  rewrite Ht. f_equal.
  - subst ms. destruct mi as [m|]; auto. destruct Hm as (NE & _ & R). destruct (mime_as_str m); congruence.
  - subst d. destruct de; auto. destruct Hd as [NE _]. destruct l; [congruence|reflexivity].
Qed.
Lemma drop_zeros_dec : forall l, be_dec (drop_zeros l) = be_dec l.
Proof.
  assert (forall l, be_dec (0 :: l) = be_dec l).
  { intros. unfold be_dec. cbn [rev]. generalize (rev l). clear. induction l; cbn [app le_dec]; auto. now rewrite IHl. }
  induction l; auto. cbn [drop_zeros]. destruct a; auto. now rewrite IHl, H.
Qed.
Lemma drop_zeros_len : forall l, lenN (drop_zeros l) <= lenN l.
Proof. induction l; cbn [drop_zeros]. lia. rewrite lenN_cons. destruct a; rewrite ?lenN_cons; lia. Qed.
Lemma rt_popm : forall h m r c, terminated_ok Latin1 m -> c < 2 ^ 64 ->
  exists b, popm_bytes w m r c = Ok b /\ parse_popm h b = Ok (Some (FPopm h m r c), []).
Proof.
  intros. unfold popm_bytes. match goal with |- context [Ok (_ ++ r :: ?t)] => destruct (rt_latin m (r :: t) H) as (n & -> & E & _) end.
  cbn [bind]. eexists. split; [reflexivity|]. unfold parse_popm. rewrite E. cbn [bind read_u8 from_opt d_content].
  do 3 f_equal. f_equal. unfold U32_MAX. destruct (N.leb_spec c 4294967295).
  - rewrite be_enc_len. change (8 <? N.of_nat 4) with false. cbv iota. rewrite be_dec_enc; auto. change (256 ^ N.of_nat 4) with 4294967296. lia.
  - pose proof (drop_zeros_len (be_enc 8 c)). rewrite be_enc_len in H2. destruct (N.ltb_spec 8 (lenN (drop_zeros (be_enc 8 c)))); [lia|].
    rewrite drop_zeros_dec, be_dec_enc; auto.
Qed.
Lemma pairs_rt : forall ne e l b bo, pairs_bytes w e l = Ok b -> ne = w_ne w ->
  Forall (fun p => terminated_ok e (fst p) /\ terminated_ok e (snd p)) l -> bo = (if encoding_eqb e UTF16 then bom_bytes ne else (0, 0)) ->
  forall fuel acc, (length b < fuel)%nat -> kv_loop fuel e bo acc b = Ok (acc ++ l, []).
Proof.
  induction l as [|[k x] l]; intros b bo E -> F -> fuel acc L; cbn [pairs_bytes] in E.
  - injection E as <-. destruct fuel; [cbn in L; lia|]. cbn [kv_loop]. unfold decode_text.
    destruct e; cbn [read_to_terminator read_to_nul read_to_nul16 bind as_ferr d_read N.eqb orb]; rewrite app_nil_r; reflexivity.
  - apply Forall_cons_iff in F as [[Fk Fx] F]. cbn [fst snd] in *.
    pose proof Fk as (Sk & _). pose proof Fx as (Sx & _).
    destruct (enc_text_spec w e k true Sk (term_latin _ _ Fk)) as (bk & Ek & Bk). rewrite Ek in E.
    destruct (enc_text_spec w e x true Sx (term_latin _ _ Fx)) as (bx & Ex & Bx). rewrite Ex in E. cbn [bind] in E.
    destruct (pairs_bytes w e l) as [r| |] eqn:Er; try discriminate E. cbn [bind] in E. injection E as <-.
    destruct fuel; [lia|]. cbn [kv_loop].
    assert (BO : (if encoding_eqb e UTF16 then bom_bytes (w_ne w) else (0, 0)) = (0, 0) \/
                 (if encoding_eqb e UTF16 then bom_bytes (w_ne w) else (0, 0)) = bom_bytes (w_ne w)) by (destruct (encoding_eqb e UTF16); auto).
    rewrite <- app_assoc.
    destruct (dec_term_bo (w_ne w) e k bk _ ((bx ++ terminator e) ++ r) Fk Bk BO) as (n1 & b1 & -> & P1 & _). cbn [bind as_ferr].
    rewrite <- app_assoc.
    destruct (dec_term_bo (w_ne w) e x bx _ r Fx Bx BO) as (n2 & b2 & -> & P2 & _). cbn [bind as_ferr d_read d_content].
    replace ((n1 =? 0) || (n2 =? 0)) with false by lia.
    rewrite (IHl r _ eq_refl eq_refl F eq_refl). now rewrite <- app_assoc.
    rewrite !app_length in L. pose proof (terminator_len e). unfold lenN in H. lia.
Qed.
Lemma rt_pairs : forall h e l, l <> [] -> Forall (fun p => terminated_ok (stored v23 e) (fst p) /\ terminated_ok (stored v23 e) (snd p)) l ->
  exists b, key_value_bytes w e l = Ok b /\ parse_key_value h v b = Ok (Some (FKeyValue h (stored v23 e) l), []).
Proof.
  intros h e l NE F. unfold key_value_bytes. wenc. set (e' := stored v23 e) in *.
  destruct l as [|[k x] l]; [congruence|]. apply Forall_cons_iff in F as [[Fk Fx] F]. cbn [fst snd] in *.
  assert (exists r, pairs_bytes w e' l = Ok r) as (r & Er).
  { clear - F. induction F as [|[k x] l [Fk Fx] F [r IH]]; cbn [pairs_bytes]. eauto. cbn [fst snd] in *.
    pose proof Fk as (Sk & _). pose proof Fx as (Sx & _).
    destruct (enc_text_spec w e' k true Sk (term_latin _ _ Fk)) as (bk & -> & Bk).
    destruct (enc_text_spec w e' x true Sx (term_latin _ _ Fx)) as (bx & -> & Bx). rewrite IH. cbn [bind]. eauto. }
  cbn [pairs_bytes]. pose proof Fk as (Sk & _). pose proof Fx as (Sx & _).
  destruct (enc_text_spec w e' k true Sk (term_latin _ _ Fk)) as (bk & -> & Bk).
  destruct (enc_text_spec w e' x true Sx (term_latin _ _ Fx)) as (bx & -> & Bx). rewrite Er. cbn [bind].
  eexists. split; [reflexivity|]. unfold parse_key_value. cbn [read_u8 from_opt bind]. rewrite verify_enc by auto. cbn [bind].
  destruct (dec_term_enc _ _ _ _ ((bx ++ terminator e') ++ r) Fk Bk) as (n & bom & -> & P & Hb). cbn [bind d_read d_bom d_content].
  destruct (N.eqb_spec n 0); [lia|].
  set (bo := match e' with UTF16 => bom | _ => (0, 0) end).
  assert (BO : bo = (if encoding_eqb e' UTF16 then bom_bytes (w_ne w) else (0, 0))).
  { subst bo. destruct e'; auto. }
  assert (BO' : bo = (0, 0) \/ bo = bom_bytes (w_ne w)) by (rewrite BO; destruct (encoding_eqb e' UTF16); auto).
  rewrite <- app_assoc. destruct (dec_term_bo (w_ne w) e' x bx bo r Fx Bx BO') as (n2 & b2 & -> & P2 & _). cbn [bind as_ferr d_content].
  rewrite (pairs_rt (w_ne w) e' l r bo Er eq_refl F BO) by lia. reflexivity.
Qed.
Lemma rt_ufid : forall h m o d, terminated_ok Latin1 o -> (o <> [] \/ m = BestAttempt) ->
  exists b, owner_bytes w o d = Ok b /\ parse_ufid h m b = Ok (Some (FUfid h o d), []).
Proof.
  intros. unfold owner_bytes. destruct (rt_latin o d H) as (n & -> & E & _). cbn [bind]. eexists. split; [reflexivity|].
  unfold parse_ufid. rewrite E. cbn [bind d_content]. destruct o; auto. destruct H0 as [X|X]; [congruence|subst m; reflexivity].
Qed.
Lemma rt_priv : forall h o d, terminated_ok Latin1 o ->
  exists b, owner_bytes w o d = Ok b /\ parse_priv h b = Ok (Some (FPriv h o d), []).
Proof.
  intros. unfold owner_bytes. destruct (rt_latin o d H) as (n & -> & E & _). cbn [bind]. eexists. split; [reflexivity|].
  unfold parse_priv. rewrite E. reflexivity.
Qed.
Lemma ch_insert_new : forall c l, ~ In (ch_type c) (map ch_type l) -> ch_insert c l = l ++ [c].
Proof.
  induction l; intros; cbn [ch_insert map In app] in *; auto. destruct (N.eqb_spec (ch_type a) (ch_type c)); [tauto|]. rewrite IHl; tauto.
Qed.
Lemma rva2_rt : forall m l b, Forall channel_ok l -> concat_res ch_bytes l = Ok b ->
  forall acc fuel, NoDup (map ch_type (acc ++ l)) -> (length b < fuel)%nat -> rva2_loop fuel m acc b = Ok (acc ++ l).
Proof.
  induction l as [|c l]; intros b F E acc fuel ND L; cbn [concat_res] in E.
  - injection E as <-. destruct fuel; [cbn in L; lia|]. cbn [rva2_loop read_u8]. now rewrite app_nil_r.
  - apply Forall_cons_iff in F as [(Ht & Ha & Hb & Hp) F]. destruct (ch_bytes c) as [cb| |] eqn:Ec; try discriminate E. cbn [bind] in E.
    destruct (concat_res ch_bytes l) as [r| |] eqn:Er; try discriminate E. cbn [bind] in E. injection E as <-.
    assert (NI : ~ In (ch_type c) (map ch_type acc)).
    { rewrite map_app in ND. cbn [map] in ND. apply NoDup_remove_2 in ND. intro. apply ND. apply in_or_app. auto. }
    assert (ND' : NoDup (map ch_type ((acc ++ [c]) ++ l))) by now rewrite <- app_assoc.
    destruct fuel; [lia|]. cbn [rva2_loop]. unfold ch_bytes in Ec. destruct c as [ct ca cbt cp]; cbn [ch_type ch_adjust ch_bits ch_peak] in *.
    destruct cp as [p|].
    + destruct Hp as (Hp0 & Hp). destruct (N.ltb_spec ((cbt + 7) / 8) (lenN p)); [lia|]. cbn [bind] in Ec.
      assert (cb = ct :: be_enc 2 ca ++ cbt :: takeN 32 p) by (injection Ec as <-; reflexivity). subst cb. clear Ec.
      cbn [app read_u8]. rewrite <- app_assoc. cbn [app]. destruct (N.leb_spec ct 8); [|lia]. cbn [bind].
      rewrite read_be_app; [|reflexivity|exact Ha]. cbn [bind from_opt read_u8]. destruct (N.ltb_spec 0 cbt); [|lia].
      rewrite takeN_all in * by (rewrite Hp; lia). rewrite read_exact_app by auto. cbn [bind from_opt].
      rewrite ch_insert_new by auto. rewrite (IHl r F eq_refl (acc ++ [mkCh ct ca cbt (Some p)]) fuel ND'). now rewrite <- app_assoc.
      cbn [app length] in L. rewrite !app_length in L. cbn [length] in L. lia.
    + assert (cb = ct :: be_enc 2 ca ++ [0]) by (injection Ec as <-; reflexivity). subst cb. clear Ec. cbn [app read_u8]. rewrite <- app_assoc. cbn [app]. destruct (N.leb_spec ct 8); [|lia]. cbn [bind].
      rewrite read_be_app; [|reflexivity|exact Ha]. cbn [bind from_opt read_u8]. subst cbt. change (0 <? 0) with false. cbv iota. cbn [bind].
      rewrite ch_insert_new by auto. rewrite (IHl r F eq_refl (acc ++ [mkCh ct ca 0 None]) fuel ND'). now rewrite <- app_assoc.
      cbn [app length] in L. rewrite !app_length in L. cbn [length] in L. lia.
Qed.
Lemma rt_rva2 : forall h m i l, terminated_ok Latin1 i -> Forall channel_ok l -> NoDup (map ch_type l) ->
  exists b, rva2_bytes w i l = Ok b /\ parse_rva2 h m b = Ok (Some (FRva2 h i l), []).
Proof.
  intros h m i l Hi F ND.
  assert (exists r, concat_res ch_bytes l = Ok r) as (r & Er).
  { clear - F. induction F as [|c l H F [r IH]]; cbn [concat_res]. eauto. rewrite IH. destruct H as (_ & _ & _ & Hp). unfold ch_bytes.
    destruct (ch_peak c) as [b|]; cbn [bind]; [|eauto]. destruct Hp as (_ & Hp). destruct (N.ltb_spec ((ch_bits c + 7) / 8) (lenN b)); [lia|]. cbn [bind]. eauto. }
  unfold rva2_bytes. rewrite Er. destruct (rt_latin i r Hi) as (n & -> & E & _). cbn [bind]. eexists. split; [reflexivity|].
  unfold parse_rva2. rewrite E. cbn [bind d_content]. rewrite (rva2_rt m l r F Er [] _ ND) by lia. reflexivity.
Qed.
Lemma rt_owne : forall h e p d s, terminated_ok Latin1 p -> length d = 8%nat -> Forall (fun c => c < 128) d -> last d 1 <> 0 ->
  text_ok (stored v23 e) s ->
  exists b, owne_bytes w e p d s = Ok b /\ parse_owne h b = Ok (Some (FOwne h (stored v23 e) p d s), []).
Proof.
  intros h e p d s Hp Ld Ad Zd Hs. unfold owne_bytes. wenc. set (e' := stored v23 e) in *. pose proof Hs as (S & _).
  destruct (enc_text_spec w e' s false S (text_latin _ _ Hs)) as (b & -> & B). nil_app. rewrite utf8_ascii' by auto.
  destruct (rt_latin p (takeN 8 d ++ b) Hp) as (n & -> & E & _). cbn [bind].
  assert (L8 : lenN d = 8) by (unfold lenN; rewrite Ld; reflexivity). rewrite L8. cbn [N.ltb N.compare Pos.compare Pos.compare_cont].
  eexists. split; [reflexivity|]. unfold parse_owne. cbn [read_u8 bind].
  destruct (enc_of_u8 (enc_to_u8 e')) eqn:Ee; [|destruct e'; discriminate].
  assert (e0 = e') as -> by (destruct e'; cbn in Ee; congruence). cbn [from_opt bind]. rewrite E. cbn [bind].
  rewrite takeN_all by lia. rewrite read_exact_app by auto. cbn [from_opt bind].
  unfold utf8_decode. rewrite <- (utf8_ascii' d) at 1 by auto. rewrite utf8_dec_enc by now apply ascii_ok. cbn [as_ferr bind].
  rewrite trim_last by auto.
  destruct (dec_rest_enc _ _ _ _ Hs B) as (n' & bom & ->). reflexivity.
Qed.
Lemma sort_chron : forall l, chronological l -> ev_sort l = l.
Proof.
  induction l as [|a l]; intros; auto. cbn [ev_sort fold_right]. fold (ev_sort l). rewrite IHl.
  - destruct l; auto. cbn [chronological] in H. cbn [ev_insert]. destruct (N.leb_spec (ev_time a) (ev_time e)); [auto|lia].
  - destruct l; [exact I|]. apply H.
Qed.
Lemma etco_rt : forall l, Forall event_ok l -> forall fuel,
  (length (flat_map (fun e => ev_type e :: be_enc 4 (ev_time e)) l) < fuel)%nat ->
  etco_loop fuel (flat_map (fun e => ev_type e :: be_enc 4 (ev_time e)) l) = Ok l.
Proof.
  induction l as [|[ty ti] l]; intros F fuel L; destruct fuel; try (cbn [length] in L; lia).
  - reflexivity.
  - apply Forall_cons_iff in F as [(Ht & Hi) F]. cbn [ev_type ev_time] in *.
    cbn [flat_map etco_loop app read_u8 ev_type ev_time]. rewrite read_be_app; [|reflexivity|exact Hi].
    cbn [from_opt bind]. rewrite IHl; auto.
    + cbn [bind]. do 2 f_equal. unfold event_type_of. match goal with |- context [if ?c then _ else _] => destruct c eqn:E end; auto. f_equal. lia.
    + cbn [flat_map app length] in L. rewrite app_length in L. lia.
Qed.
Lemma rt_etco : forall h f l, Forall event_ok l -> chronological l ->
  parse_etco h (etco_bytes f l) = Ok (Some (FEtco h f l), []).
Proof.
  intros. unfold parse_etco, etco_bytes. cbn [read_u8]. replace (ts_format_of (ts_format_u8 f)) with (Some f) by (destruct f; reflexivity).
  cbn [from_opt bind]. rewrite sort_chron by auto. rewrite etco_rt by (auto; lia). cbn [bind]. now rewrite sort_chron.
Qed.
Lemma display_ascii : forall t, ts_verify t = Ok tt -> Forall (fun c => 0 < c < 128) (ts_display t).
Proof.
  intros t _. assert (P : forall w n, Forall (fun c => 0 < c < 128) (pad w n)).
  { intros. unfold pad. apply Forall_app. split. apply Forall_forall. intros x H. apply repeat_spec in H. subst. lia.
    destruct (StrLemmas.to_dec_spec n) as (H & _). eapply Forall_impl; [|exact H]. cbv beta. unfold is_digit. intros. lia. }
  unfold ts_display.
  repeat match goal with
  | |- Forall _ (pad _ _) => apply P
  | |- Forall _ (match ?o with _ => _ end) => destruct o
  | |- Forall _ [] => constructor
  | |- Forall _ (_ :: _) => constructor; [lia|]
  | |- Forall _ (_ ++ _) => apply Forall_app; split
  end.
Qed.
Lemma rt_time : forall h m e t, ts_verify t = Ok tt ->
  exists b, time_bytes w e t = Ok b /\ parse_time h m b = Ok (Some (FTime h (stored v23 e) t), []).
Proof.
  intros h m e t V. unfold time_bytes. wenc. set (e' := stored v23 e) in *. rewrite V. cbn [as_ferr bind].
  pose proof (display_ascii t V) as A.
  assert (A1 : Forall (fun c => c < 128) (ts_display t)) by (eapply Forall_impl; [|exact A]; cbv beta; intros; lia).
  assert (T : text_ok e' (ts_display t)).
  { split. now apply ascii_ok. split.
    - assert (forall s, Forall (fun c => 0 < c < 128) s -> last s 1 <> 0).
      { clear. induction s; intros; cbn [last]. lia. apply Forall_cons_iff in H as [H1 H2]. destruct s. lia. auto. }
      auto.
    - destruct e'; auto; (eapply Forall_impl; [|exact A]); cbv beta; intros; lia. }
  pose proof T as (S & _).
  destruct (enc_text_spec w e' _ false S (text_latin _ _ T)) as (b & -> & B). cbn [bind]. nil_app.
  eexists. split; [reflexivity|]. unfold parse_time. cbn [read_u8 from_opt bind].
  destruct (enc_of_u8 (enc_to_u8 e')) eqn:Ee; [|destruct e'; discriminate].
  assert (e0 = e') as -> by (destruct e'; cbn in Ee; congruence).
  destruct (dec_rest_enc _ _ _ _ T B) as (n & bom & ->). cbn [bind d_content]. rewrite utf8_ascii' by auto.
  destruct (C18_roundtrip t m V) as (-> & _). reflexivity.
Qed.
End Kinds.

(** All frames without frames inside. *)
Definition leaf (f : frame) : bool := match f with FChap _ _ _ _ _ | FCtoc _ _ _ _ _ _ => false | _ => true end.
Lemma leaf_nonempty : forall w v23 m f b, content_ok v23 m f -> leaf f = true -> leaf_bytes w f = Ok b -> b <> [].
Proof.
  intros w v23 m f b C L E. destruct f; try discriminate L; cbn [leaf_bytes content_ok] in *;
  unfold lang_bytes, text_bytes, user_bytes, url_bytes, picture_bytes, popm_bytes, key_value_bytes, rva2_bytes, owner_bytes,
    owne_bytes, etco_bytes, time_bytes in E;
  repeat match type of E with
  | (if ?c then _ else _) = _ => destruct c; try discriminate E
  | bind ?x _ = _ => let X := fresh "X" in destruct x eqn:X; cbn [bind] in E; try discriminate E
  end; try (injection E as <-); try discriminate.
  all: try (intro Z; apply (f_equal lenN) in Z; rewrite ?lenN_app, ?lenN_cons in Z; change (lenN []) with 0 in Z; lia).
  all: try exact C.
  - destruct C as ((S & Z & F) & NE). unfold enc_text in E. cbn [encode] in E. unfold latin1_encode in E. rewrite latin1_ok in E by auto.
    injection E as <-. exact NE.
  - destruct C as ((S & Z & F) & _). unfold enc_text in X. cbn [encode] in X. unfold latin1_encode in X. rewrite latin1_ok in X by auto.
    injection X as <-. destruct ident; discriminate.
  - destruct C as ((S & Z & F) & _). unfold enc_text in X. cbn [encode] in X. unfold latin1_encode in X. rewrite latin1_ok in X by auto.
    injection X as <-. destruct owner; discriminate.
  - destruct C as (S & Z & F). unfold enc_text in X. cbn [encode] in X. unfold latin1_encode in X. rewrite latin1_ok in X by auto.
    injection X as <-. destruct owner; discriminate.
Qed.
Lemma rt_leaf : forall w v kids m f s, v <> V2 -> leaf f = true -> f_id f = Valid s -> kind_of_name s = kind_of f ->
  content_ok (w_v23 w) m f ->
  leaf_bytes w f = Err ETooMuch \/
  exists b, leaf_bytes w f = Ok b /\ parse_content kids (f_id f) (f_flags f) v m b = Ok (Some (restored (w_v23 w) f), []).
Proof.
  intros w v kids m f s NV Lf Hi Hk C.
  assert (HH : mkFH (Valid s) (f_flags f) = f_header f).
  { unfold f_flags. rewrite <- Hi. unfold f_id. destruct (f_header f); reflexivity. }
  rewrite Hi. setoid_rewrite dispatch. cbv zeta. rewrite HH, Hk. clear HH Hi Hk.
  destruct f; try discriminate Lf; cbn [kind_of leaf_bytes f_header restored] in *; cbn [content_ok] in C.
  all: try (right; match goal with
       | |- context [FComment] => now apply rt_lang | |- context [FUnsync] => now apply rt_lang
       | |- context [FText] => now apply rt_text | |- context [FUserText] => now apply rt_user_text
       | |- context [FUserUrl] => now apply rt_user_url | |- context [FPopm] => now apply rt_popm
       | |- context [FKeyValue] => now apply rt_pairs | |- context [FRva2] => now apply rt_rva2
       | |- context [FUfid] => now apply rt_ufid | |- context [FPriv] => now apply rt_priv
       | |- context [FTime] => now apply rt_time
       end).
  - right. destruct (rt_url w h content) as (b & E & _ & P); try apply C. eauto.
  - destruct C as (C1 & C2 & C3 & C4). now apply rt_picture.
  - right. destruct C as (C1 & (C2 & C3 & C4) & C5). now apply rt_owne.
  - right. eexists. split; [reflexivity|]. now apply rt_etco.
  - right. eexists. split; reflexivity.
Qed.
