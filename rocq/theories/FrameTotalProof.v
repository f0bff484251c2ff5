(** Reading ID3v2 tags never panics. *)
From Verif Require Import BaseLemmas SynchProof TextProof TextThm TimestampThm FrameProof1 FrameListProof.
From Verif Require Export FrameReadModel.

Definition fine {A} (n : N) (p : res ferr (A * bytes)) : Prop :=
  match p with Panic => False | Err _ => True | Ok (_, rest) => lenN rest <= n end.
Lemma fine_bind : forall A B n n' (p : res ferr (A * bytes)) (k : A * bytes -> res ferr (B * bytes)),
  fine n p -> (forall a r, lenN r <= n -> p = Ok (a, r) -> fine n' (k (a, r))) -> fine n' (bind p k).
Proof. intros A B n n' [[a r]| |] k F K; cbn [bind fine] in *; auto. Qed.
Lemma fine_dec : forall e t b r, fine (lenN r) (as_ferr (decode_text e t b r) EText).
Proof. intros. pose proof (decode_text_total e t b r) as T. destruct (decode_text e t b r) as [[d x]| |]; cbn [as_ferr fine]; auto. lia. Qed.
Lemma fine_read : forall n r, fine (lenN r) (from_opt (read_exact n r) EEof).
Proof. intros. destruct (read_exact n r) as [[a x]|] eqn:E; cbn [from_opt fine]; auto. apply read_exact_spec in E as (-> & L). rewrite lenN_app. lia. Qed.
Lemma fine_be : forall n r, fine (lenN r) (from_opt (read_be n r) EEof).
Proof. intros. unfold read_be. pose proof (fine_read n r). destruct (read_exact n r) as [[a x]|]; auto. Qed.
Lemma fine_u8 : forall r, fine (lenN r) (from_opt (read_u8 r) EEof).
Proof. intros. destruct r; cbn; auto. unfold lenN. cbn [length]. lia. Qed.
Ltac fs :=
  cbv beta iota zeta;
  match goal with
  | |- fine _ (bind (dec_term _ _) _) => eapply fine_bind; [apply fine_dec|intros ? ? ? ?]
  | |- fine _ (bind (dec_rest _ _) _) => eapply fine_bind; [apply fine_dec|intros ? ? ? ?]
  | |- fine _ (bind (as_ferr (decode_text _ _ _ _) _) _) => eapply fine_bind; [apply fine_dec|intros ? ? ? ?]
  | |- fine _ (bind (from_opt (read_exact _ _) _) _) => eapply fine_bind; [apply fine_read|intros ? ? ? ?]
  | |- fine _ (bind (from_opt (read_be _ _) _) _) => eapply fine_bind; [apply fine_be|intros ? ? ? ?]
  | |- fine _ (bind (from_opt (read_u8 _) _) _) => eapply fine_bind; [apply fine_u8|intros ? ? ? ?]
  | |- fine _ (Err _) => exact I
  | |- fine _ (Ok _) => cbn [fine]; rewrite ?lenN_nil; lia
  | |- fine _ (bind (from_opt ?x _) _) => destruct x; cbn [from_opt bind]
  | |- fine _ (bind (verify_encoding ?b ?v) _) => unfold verify_encoding
  | |- fine _ (bind (Ok _) _) => cbn [bind]
  | |- fine _ (bind (Err _) _) => exact I
  | |- fine _ (bind (if ?x then _ else _) _) => destruct x eqn:?
  | |- fine _ (if ?x then _ else _) => destruct x eqn:?
  end.
Lemma fine_text : forall h v r, fine (lenN r) (parse_text h v r).
Proof. intros. unfold parse_text. destruct r as [|b r]; cbn [read_u8]. fs. rewrite lenN_cons. repeat fs. Qed.
Lemma dec_bom : forall r d x, dec_term UTF16 r = Ok (d, x) -> d_bom d = (0, 0) \/ d_bom d = (0xFF, 0xFE) \/ d_bom d = (0xFE, 0xFF).
Proof.
  intros r d x E. unfold dec_term, decode_text in E. destruct (read_to_terminator r UTF16) as [[raw n] rest].
  destruct raw as [|a raw]. { injection E as <- _. auto. }
  unfold decode_raw in E. destruct (lenN (a :: raw) <? 2); [discriminate E|]. destruct (negb _); [discriminate E|].
  change (bom_eqb (0, 0) (0, 0)) with true in E. cbv iota in E. destruct raw as [|b raw]; cbn [bind] in E; [discriminate E|].
  unfold bom_eqb in E. cbn [fst snd] in E.
  destruct ((a =? 0xFE) && (b =? 0xFF)) eqn:B1; [|destruct ((a =? 0xFF) && (b =? 0xFE)) eqn:B2; [|discriminate E]].
  - destruct (utf16_decode_bytes _ true); cbn [bind as_ferr] in E; try discriminate E. injection E as <- _. cbn [d_bom]. right. right. f_equal; lia.
  - destruct (utf16_decode_bytes _ false); cbn [bind as_ferr] in E; try discriminate E. injection E as <- _. cbn [d_bom]. right. left. f_equal; lia.
Qed.
Lemma fine_user_text : forall h v r, fine (lenN r) (parse_user_text h v r).
Proof.
  intros. unfold parse_user_text. destruct r as [|b r]; cbn [read_u8]. fs. rewrite lenN_cons. unfold verify_encoding.
  destruct (is_v2 v && _); [exact I|]. destruct (enc_of_u8 b) as [e|]; cbn [from_opt bind]; [|exact I].
  fs. cbv beta iota. destruct e.
  1, 3, 4: fs; fs.
  destruct r0 as [|x r0]; [fs|]. cbv zeta.
  assert (B : forall bo, bo = (0, 0) \/ bo = (0xFF, 0xFE) \/ bo = (0xFE, 0xFF) ->
     fine (1 + lenN r) (bind (if bom_eqb bo (0, 0) then Err EText else if bom_eqb bo (255, 254) then Ok false else if bom_eqb bo (254, 255) then Ok true else Panic)
        (fun be => bind (as_ferr (utf16_decode_bytes (x :: r0) be) EText) (fun s => Ok (Some (FUserText h UTF16 (d_content a) s), [])))) ).
  { intros bo H1. assert (U : forall be, fine (1 + lenN r) (bind (as_ferr (utf16_decode_bytes (x :: r0) be) EText) (fun s => Ok (Some (FUserText h UTF16 (d_content a) s), [])))).
    { intro be. pose proof (utf16_decode_nopanic (x :: r0) be). destruct (utf16_decode_bytes (x :: r0) be); cbn [as_ferr bind fine]; auto. rewrite lenN_nil. lia. }
    destruct H1 as [-> | [-> | ->]]; unfold bom_eqb; cbn [fst snd]. exact I. apply (U false). apply (U true). }
  apply B. apply dec_bom in H0. destruct r0 as [|y r0]; auto. destruct (((x =? 255) && (y =? 254)) || ((x =? 254) && (y =? 255))) eqn:X; auto.
  assert (x = 255 /\ y = 254 \/ x = 254 /\ y = 255) as [[-> ->]|[-> ->]] by lia; auto.
Qed.
Lemma fine_user_url : forall h v r, fine (lenN r) (parse_user_url h v r).
Proof. intros. unfold parse_user_url. destruct r as [|b r]; cbn [read_u8]. fs. rewrite lenN_cons. repeat fs. Qed.
Lemma fine_lang : forall mk v r, fine (lenN r) (parse_lang mk v r).
Proof.
  intros. unfold parse_lang. destruct r as [|b r]; cbn [read_u8]. fs. rewrite lenN_cons. fs. fs. fs. fs. fs. fs. cbv zeta.
  destruct (match e with UTF16 => _ | _ => _ end) as [be|].
  - unfold utf16_decode_terminated_maybe_bom. destruct (read_to_terminator r1 UTF16) as [[raw n] rest] eqn:E. apply read_to_terminator_total in E.
    match goal with |- fine _ (bind (as_ferr (bind ?z _) _) _) => assert (Z : z <> Panic) end.
    { destruct raw as [|p [|q raw]]; try apply utf16_decode_nopanic. repeat match goal with |- (if ?c then _ else _) <> _ => destruct c end; apply utf16_decode_nopanic. }
    match goal with |- fine _ (bind (as_ferr (bind ?z _) _) _) => destruct z as [s| |] end; cbn [bind as_ferr fine]; auto. lia.
  - repeat fs.
  - exact I.
Qed.
Lemma fine_picture : forall h v r, fine (lenN r) (parse_picture h v r).
Proof.
  intros. unfold parse_picture. fs. fs. 2: exact I. destruct (is_v2 v).
  - destruct (read_exact 3 r0) as [[f x]|] eqn:E; cbn [from_opt bind]; [|exact I]. apply read_exact_spec in E as (-> & _). rewrite lenN_app in *.
    destruct (list_eqb f _); cbn [bind]; [repeat fs|]. destruct (list_eqb f _); cbn [bind]; [repeat fs|exact I].
  - pose proof (fine_dec Latin1 true (0, 0) r0) as D. unfold dec_term at 1. destruct (as_ferr (decode_text Latin1 true (0, 0) r0) EText) as [[d x]| |]; cbn [bind fine] in *; auto.
    repeat fs.
Qed.
Lemma fine_kv : forall e bom fuel acc r, (length r < fuel)%nat -> fine (lenN r) (kv_loop fuel e bom acc r).
Proof.
  induction fuel as [|fuel IH]; intros acc r H. lia. cbn [kv_loop].
  pose proof (decode_text_total e true bom r) as D. destruct (decode_text e true bom r) as [[k r1]| |]; cbn [as_ferr bind]; [|exact I|contradiction].
  pose proof (decode_text_total e true bom r1) as D1. destruct (decode_text e true bom r1) as [[k1 r2]| |]; cbn [as_ferr bind]; [|exact I|contradiction].
  destruct ((d_read k =? 0) || (d_read k1 =? 0)) eqn:Z. cbn [fine]. lia.
  specialize (IH (acc ++ [(d_content k, d_content k1)]) r2). destruct (kv_loop fuel e bom _ r2) as [[a b]| |]; cbn [fine] in *; auto.
  - enough (lenN b <= lenN r2) by lia. apply IH. unfold lenN in *. lia.
  - apply IH. unfold lenN in *. lia.
Qed.
Lemma fine_key_value : forall h v r, fine (lenN r) (parse_key_value h v r).
Proof.
  intros. unfold parse_key_value. fs. fs. fs. exact I. destruct (enc_of_u8 a); cbn [from_opt bind]; [|exact I]. fs. fs. fs. fs. cbv zeta.
  eapply fine_bind. apply fine_kv. lia. intros. fs.
Qed.
Lemma fine_ufid : forall h m r, fine (lenN r) (parse_ufid h m r).
Proof. intros. unfold parse_ufid. fs. destruct (d_content a). fs; fs. fs. Qed.
Lemma rva2_total : forall m fuel acc r, (length r < fuel)%nat -> rva2_loop fuel m acc r <> Panic.
Proof.
  induction fuel as [|fuel IH]; intros acc r H. lia. cbn [rva2_loop]. destruct r as [|b r]; cbn [read_u8]. discriminate. cbn [length] in H.
  assert (X : forall t, bind (from_opt (read_be 2 r) EEof) (fun '(vol, r) => bind (from_opt (read_u8 r) EEof) (fun '(bits, r) =>
     bind (if 0 <? bits then let? (p, r) := from_opt (read_exact ((bits + 7) / 8) r) EEof in Ok (Some p, r) else Ok (None, r))
       (fun '(peak, r) => rva2_loop fuel m (ch_insert (mkCh t vol bits peak) acc) r))) <> Panic).
  { intro t. unfold read_be. destruct (read_exact 2 r) as [[x r1]|] eqn:E; cbn [from_opt bind]; [|discriminate]. apply read_exact_spec in E as (-> & _).
    rewrite app_length in H. destruct r1 as [|bits r1]; cbn [read_u8 from_opt bind]; [discriminate|]. cbn [length] in H. destruct (0 <? bits).
    - destruct (read_exact _ r1) as [[p r2]|] eqn:E; cbn [from_opt bind]; [|discriminate]. apply read_exact_spec in E as (-> & _). rewrite app_length in H. apply IH. lia.
    - cbn [bind]. apply IH. lia. }
  destruct (b <=? 8); cbn [bind]. apply X. destruct (is_best m); cbn [bind]. apply X. discriminate.
Qed.
Lemma fine_rva2 : forall h m r, fine (lenN r) (parse_rva2 h m r).
Proof.
  intros. unfold parse_rva2. fs. cbv beta iota. pose proof (rva2_total m (S (length r0)) [] r0 ltac:(lia)) as X.
  destruct (rva2_loop (S (length r0)) m [] r0); cbn [bind]; [fs|exact I|contradiction].
Qed.
Lemma fine_owne : forall h r, fine (lenN r) (parse_owne h r).
Proof.
  intros. unfold parse_owne. destruct r as [|b r]; cbn [read_u8]. fs. rewrite lenN_cons. fs; [|exact I]. fs. fs. cbv beta iota.
  unfold utf8_decode. destruct (utf8_dec a0); cbn [as_ferr bind]; [|exact I]. repeat fs.
Qed.
Lemma etco_total : forall fuel r, (length r < fuel)%nat -> etco_loop fuel r <> Panic.
Proof.
  induction fuel as [|fuel IH]; intros r H. lia. cbn [etco_loop]. destruct r as [|b r]; cbn [read_u8]. discriminate. cbn [length] in H.
  unfold read_be. destruct (read_exact 4 r) as [[x r1]|] eqn:E; cbn [from_opt bind]; [|discriminate]. apply read_exact_spec in E as (-> & _).
  rewrite app_length in H. specialize (IH r1 ltac:(lia)). destruct (etco_loop fuel r1); cbn [bind]; congruence.
Qed.
Lemma fine_etco : forall h r, fine (lenN r) (parse_etco h r).
Proof.
  intros. unfold parse_etco. destruct r as [|b r]; cbn [read_u8]. fs. rewrite lenN_cons. fs; [|exact I].
  pose proof (etco_total (S (length r)) r ltac:(lia)) as X. destruct (etco_loop (S (length r)) r); cbn [bind]; [fs|exact I|contradiction].
Qed.
Lemma fine_priv : forall h r, fine (lenN r) (parse_priv h r).
Proof.
  intros. unfold parse_priv, dec_term. pose proof (fine_dec Latin1 true (0, 0) r) as D. destruct (as_ferr _ _) as [[d x]| |]; cbn [fine] in *; rewrite ?lenN_nil; auto; lia.
Qed.
Lemma fine_time : forall h m r, fine (lenN r) (parse_time h m r).
Proof.
  intros. unfold parse_time. fs. cbv beta iota. destruct (enc_of_u8 a). 2: { fs; fs. } fs. cbv beta iota.
  pose proof (C20_parse_total (utf8_enc (d_content a0)) m) as T. destruct (ts_parse _ m) as [[t|]| |]; try fs; try contradiction; fs.
Qed.
Lemma fine_url : forall h r, fine (lenN r) (parse_url h r).
Proof. intros. unfold parse_url. repeat fs. Qed.
Lemma fine_popm : forall h r, fine (lenN r) (parse_popm h r).
Proof. intros. unfold parse_popm. repeat fs. Qed.
Lemma fine_bin : forall h r, fine (lenN r) (parse_bin h r).
Proof. intros. unfold parse_bin. fs. Qed.
Definition fine_kids (kids : kids_reader) (n : N) : Prop := forall x, lenN x <= n -> fine (lenN x) (kids x).
Lemma fine_chap : forall kids h v r, fine_kids kids (lenN r) -> fine (lenN r) (parse_chap kids h v r).
Proof.
  intros kids h v r K. unfold parse_chap. fs; [exact I|]. do 5 fs. cbv beta iota. eapply fine_bind. apply K. lia. intros. fs.
Qed.
Lemma fine_entries : forall n r, fine (lenN r) (ctoc_entries n r).
Proof.
  induction n; intros; cbn [ctoc_entries]. fs. fs. cbv beta iota. eapply fine_bind. apply IHn. intros. fs.
Qed.
Lemma fine_ctoc : forall kids h v r, fine_kids kids (lenN r) -> fine (lenN r) (parse_ctoc kids h v r).
Proof.
  intros kids h v r K. unfold parse_ctoc. fs; [exact I|]. do 3 fs. cbv beta iota. eapply fine_bind. apply fine_entries. intros. cbv beta iota.
  eapply fine_bind. apply K. lia. intros. fs.
Qed.
Lemma fine_content : forall kids id fl v m r, fine_kids kids (lenN r) -> fine (lenN r) (parse_content kids id fl v m r).
Proof.
  intros kids id fl v m r K. unfold parse_content. cbv zeta.
  repeat match goal with |- fine _ (if ?c then _ else _) => destruct c end;
  auto using fine_picture, fine_user_text, fine_user_url, fine_lang, fine_key_value, fine_ufid, fine_rva2, fine_owne, fine_etco, fine_priv, fine_time, fine_text,
    fine_url, fine_popm, fine_chap, fine_ctoc, fine_bin.
Qed.
Lemma resync_le : forall n l, (length l <= n)%nat -> (length (resynchronise l) <= length l)%nat.
Proof.
  induction n; intros [|b [|c l]] H; try (cbn in *; lia).
  change (resynchronise (b :: c :: l)) with (if (b =? 255) && (c =? 0) then b :: resynchronise l else b :: resynchronise (c :: l)).
  assert (X := IHn l). assert (Y := IHn (c :: l)). destruct ((b =? 255) && (c =? 0)); simpl length in *; lia.
Qed.
Lemma resync_lenN : forall l, lenN (resynchronise l) <= lenN l.
Proof. intros. unfold lenN. pose proof (resync_le (length l) l). lia. Qed.
Lemma unsync_rest_le : forall raw more, lenN (unsync_rest raw more) <= lenN raw.
Proof. intros. unfold unsync_rest. destruct more. rewrite lenN_nil. lia. cbv zeta. rewrite lenN_dropN. lia. Qed.
Lemma extras_fine : forall fl size r,
  match read_extras fl size r with Panic => False | Err _ => True | Ok (_, _, rest) => lenN rest <= lenN r end.
Proof.
  intros. unfold read_extras.
  assert (A : forall fl size r, match (if is_some (ff_length fl) || ff_compression fl then
     if size <? 4 then Err EUndersized else let? (v, r) := from_opt (read_be 4 r) EEof in Ok (set_length fl (unsynch32 v), size - 4, r) else Ok (fl, size, r))
     with Panic => False | Err _ => True | Ok (_, _, rest) => lenN rest <= lenN r end).
  { clear. intros. destruct (_ || _); [|lia]. destruct (size <? 4); [exact I|]. pose proof (fine_be 4 r) as F. destruct (from_opt (read_be 4 r) EEof) as [[x y]| |]; cbn [bind fine] in *; auto. }
  assert (B : forall fl size r, match (bind (match ff_group fl with Some _ => if size <? 1 then Err EUndersized else
      let? (b, r) := from_opt (read_u8 r) EEof in Ok (set_group fl b, size - 1, r) | None => Ok (fl, size, r) end)
      (fun '(fl, size, r) => if is_some (ff_length fl) || ff_compression fl then
     if size <? 4 then Err EUndersized else let? (v, r) := from_opt (read_be 4 r) EEof in Ok (set_length fl (unsynch32 v), size - 4, r) else Ok (fl, size, r)))
     with Panic => False | Err _ => True | Ok (_, _, rest) => lenN rest <= lenN r end).
  { clear - A. intros. destruct (ff_group fl); cbn [bind]; [|apply A]. destruct (size <? 1); [exact I|]. destruct r as [|b r]; cbn [read_u8 from_opt bind]; [exact I|].
    specialize (A (set_group fl b) (size - 1) r). match goal with |- match ?z with _ => _ end => destruct z as [[[? ?] ?]| |] end; auto. rewrite lenN_cons. lia. }
  destruct (ff_encryption fl); cbn [bind]; [|apply B]. destruct (size <? 1); [exact I|]. destruct r as [|b r]; cbn [read_u8 from_opt bind]; [exact I|].
  specialize (B (set_enc fl b) (size - 1) r). match goal with |- match ?z with _ => _ end => destruct z as [[[? ?] ?]| |] end; auto. rewrite lenN_cons. lia.
Qed.
Definition after_frame (r : bytes) (x : res ferr (pframe * bytes)) : Prop :=
  match x with Panic => False | Err _ => True | Ok (PEnd, _) => True | Ok (_, rest) => lenN rest < lenN r end.
Lemma header_shorter : forall v i r,
  match (if is_v2 v then parse_v2_header r else parse_header (is_v4 v) i r) with HEnd => True | HBad _ x | HOk _ _ _ x => lenN x < lenN r end.
Proof.
  intros. destruct (is_v2 v).
  - unfold parse_v2_header. destruct (read_exact 6 r) as [[h x]|] eqn:E; auto. apply read_exact_spec in E as (-> & L). rewrite lenN_app.
    destruct (_ =? 0); auto. cbv zeta. destruct (utf8_dec _); [destruct (frame_id_new _)|]; lia.
  - unfold parse_header. destruct (read_exact 10 r) as [[h x]|] eqn:E; auto. apply read_exact_spec in E as (-> & L). rewrite lenN_app.
    destruct (_ =? 0); auto. cbv zeta. destruct (utf8_decode _); [destruct (frame_id_new _)| |]; lia.
Qed.
Lemma frame_fine : forall inflate kids v u o r,
  (forall b c, inflate b = Some c -> lenN c <= lenN b) ->
  (forall x, lenN x < lenN r -> fine (lenN x) (kids x)) ->
  after_frame r (read_frame inflate kids v u o r).
Proof.
  intros inflate kids v u o r I K. unfold read_frame. pose proof (header_shorter v (fo_implicit o) r) as H.
  destruct (if is_v2 v then _ else _) as [|size x|id fl size x]. exact Logic.I.
  - destruct (is_strict _). exact Logic.I. cbn. rewrite lenN_dropN. lia.
  - destruct (negb _ && _). { cbn. rewrite lenN_dropN. lia. } cbv zeta. destruct (size =? 0). { destruct (is_strict _). exact Logic.I. exact H. }
    match goal with |- context [read_extras ?a ?b ?c] => pose proof (extras_fine a b c) as X; destruct (read_extras a b c) as [[[fl' size'] r']| |] end; cbn [bind]; [|exact Logic.I|contradiction].
    destruct (size' =? 0). exact Logic.I.
    set (plain := if ff_unsync fl' then resynchronise (takeN size' r') else takeN size' r').
    assert (P : lenN plain <= lenN (takeN size' r')). { subst plain. destruct (ff_unsync fl'). apply resync_lenN. lia. }
    assert (T : lenN (takeN size' r') + lenN (dropN size' r') = lenN r') by (rewrite lenN_takeN, lenN_dropN; lia).
    assert (C : forall c, lenN c <= lenN plain -> match content_frame (parse_content kids id fl' v (fo_mode o) c) with Panic => False | Err _ => True | Ok (p, more) => p <> PEnd /\ lenN more <= lenN c end).
    { intros c L. pose proof (fine_content kids id fl' v (fo_mode o) c) as F. unfold content_frame.
      assert (G : fine_kids kids (lenN c)) by (intros y Y; apply K; lia). specialize (F G). destruct (parse_content _ _ _ _ _ c) as [[[f|] m]| |]; cbn [bind fine] in *; auto.
      split. discriminate. exact F. split. discriminate. rewrite lenN_nil. lia. }
    assert (E : forall c, match encrypted_frame id fl' size' c with Panic => False | Err _ => True | Ok p => p <> PEnd end).
    { intro c. unfold encrypted_frame. destruct (ff_length fl'); [|exact Logic.I]. destruct (read_exact size' c) as [[? ?]|]; cbn [from_opt bind]; auto. discriminate. }
    destruct (ff_compression fl').
    + destruct (inflate plain) as [c|] eqn:IN; cbn [from_opt bind]; [|exact Logic.I]. apply I in IN. destruct (is_some _).
      * specialize (E c). destruct (encrypted_frame _ _ _ c) as [p| |]; cbn [bind after_frame]; auto. destruct p; auto; lia.
      * specialize (C c IN). destruct (content_frame _) as [[p m]| |]; cbn [bind after_frame]; auto. destruct p; auto; lia.
    + destruct (is_some _).
      * specialize (E plain). destruct (encrypted_frame _ _ _ plain) as [p| |]; cbn [bind after_frame]; auto. destruct p; auto; lia.
      * specialize (C plain ltac:(lia)). destruct (content_frame _) as [[p m]| |]; cbn [bind after_frame]; auto. destruct C as [C1 C2].
        assert (M : lenN ((if ff_unsync fl' then unsync_rest (takeN size' r') m else m) ++ dropN size' r') < lenN r).
        { rewrite lenN_app. pose proof (unsync_rest_le (takeN size' r') m). destruct (ff_unsync fl'); lia. }
        destruct p; auto.
Qed.
Lemma end_rest : forall inflate kids v u o r x, read_frame inflate kids v u o r = Ok (PEnd, x) -> x = [].
Proof.
  intros inflate kids v u o r x E. unfold read_frame in E.
  destruct (if is_v2 v then _ else _) as [|size y|id fl size y]. { now injection E. }
  { destruct (is_strict _); discriminate E. }
  destruct (negb _ && _). discriminate E. cbv zeta in E. destruct (size =? 0). { destruct (is_strict _); discriminate E. }
  destruct (read_extras _ _ _) as [[[fl' size'] r']| |]; cbn [bind] in E; try discriminate E. destruct (size' =? 0). discriminate E.
  assert (A : forall c p, encrypted_frame id fl' size' c = Ok p -> p <> PEnd).
  { intros c p. unfold encrypted_frame. destruct (ff_length fl'); [|discriminate]. destruct (read_exact size' c) as [[? ?]|]; cbn [from_opt bind]; [|discriminate]. intro Q. injection Q as <-. discriminate. }
  assert (B : forall q p m, content_frame q = Ok (p, m) -> p <> PEnd).
  { intros q p m. unfold content_frame. destruct q as [[[f|] ?]| |]; cbn [bind]; try discriminate; intro Q; injection Q as <- _; discriminate. }
  destruct (ff_compression fl').
  - destruct (inflate _) as [c|]; cbn [from_opt bind] in E; try discriminate E. destruct (is_some _).
    + destruct (encrypted_frame _ _ _ _) as [p| |] eqn:Q; cbn [bind] in E; try discriminate E. apply A in Q. injection E as -> _. congruence.
    + destruct (content_frame _) as [[p m]| |] eqn:Q; cbn [bind] in E; try discriminate E. apply B in Q. injection E as -> _. congruence.
  - destruct (is_some _).
    + destruct (encrypted_frame _ _ _ _) as [p| |] eqn:Q; cbn [bind] in E; try discriminate E. apply A in Q. injection E as -> _. congruence.
    + destruct (content_frame _) as [[p m]| |] eqn:Q; cbn [bind] in E; try discriminate E. apply B in Q. injection E as -> _. congruence.
Qed.
Lemma all_fine : forall inflate v o, (forall b c, inflate b = Some c -> lenN c <= lenN b) ->
  forall fuel u acc r, lenN r < N.of_nat fuel -> fine (lenN r) (read_all inflate fuel v u o acc r).
Proof.
  intros inflate v o I. induction fuel as [|fuel IH]; intros u acc r L. lia. cbn [read_all].
  assert (K : forall x, lenN x < lenN r -> fine (lenN x) (read_all inflate fuel v false o [] x)) by (intros x X; apply IH; lia).
  pose proof (frame_fine inflate (read_all inflate fuel v false o []) v u o r I K) as F.
  destruct (read_frame _ _ v u o r) as [[p r']| |] eqn:E; cbn [bind after_frame fine] in *; auto.
  destruct p as [f| |].
  - specialize (IH u (add_read f acc) r' ltac:(lia)). destruct (read_all inflate fuel v u o _ r') as [[? ?]| |]; cbn [fine] in *; auto. lia.
  - specialize (IH u acc r' ltac:(lia)). destruct (read_all inflate fuel v u o _ r') as [[? ?]| |]; cbn [fine] in *; auto. lia.
  - apply end_rest in E. subst. cbn [fine]. rewrite lenN_nil. lia.
Qed.
