(** ID3v2 frames: where the next frame is looked for. *)
From Verif Require Import BaseLemmas TextProof FrameProof1 FrameListProof FrameTotalProof.
From Verif Require Export FrameSpec FrameReadModel.
From Verif Require Import FrameThm.

Lemma dec_rest_all : forall e r d x, dec_rest e r = Ok (d, x) -> x = [].
Proof.
  intros e r d x E. unfold dec_rest, decode_text in E. destruct r as [|a r]. { now injection E. }
  destruct (decode_raw _ _ _) as [[s b]| |]; cbn [bind as_ferr] in E; try discriminate E. now injection E.
Qed.
Lemma nul_end : forall r t n rest, read_to_nul r = (t, n, rest) -> lenN t + n = 0 -> rest = [].
Proof.
  destruct r as [|b r]; cbn [read_to_nul]; intros t n rest E H. now injection E. destruct (b =? 0). injection E as <- <- <-. rewrite lenN_nil in H. lia.
  destruct (read_to_nul r) as [[t' n'] r']. injection E as <- <- <-. rewrite lenN_cons in H. lia.
Qed.
Lemma nul16_end : forall r t n rest, read_to_nul16 r = (t, n, rest) -> lenN t + n = 0 -> rest = [].
Proof.
  destruct r as [|a [|b r]]; cbn [read_to_nul16]; intros t n rest E H; try (now injection E). destruct (_ && _). injection E as <- <- <-. rewrite lenN_nil in H. lia.
  destruct (read_to_nul16 r) as [[t' n'] r']. injection E as <- <- <-. rewrite !lenN_cons in H. lia.
Qed.
Lemma nothing_read : forall e b r d x, decode_text e true b r = Ok (d, x) -> d_read d = 0 -> x = [].
Proof.
  intros e b r d x E H. unfold decode_text in E. destruct (read_to_terminator r e) as [[raw n] rest] eqn:T.
  assert (Z : lenN raw + n = 0 -> rest = []) by (destruct e; cbn [read_to_terminator] in T; eauto using nul_end, nul16_end).
  destruct raw as [|c raw].
  - injection E as <- <-. cbn [d_read] in H. apply Z. rewrite lenN_nil. lia.
  - destruct (decode_raw _ _ _) as [[s b']| |]; cbn [bind] in E; try discriminate E. injection E as <- <-. cbn [d_read] in H. auto.
Qed.
Lemma empty_read : forall e b d x, decode_text e true b [] = Ok (d, x) -> x = [].
Proof. intros e b d x E. destruct e; vm_compute in E; now injection E. Qed.
Lemma kv_end : forall e b fuel acc r l x, kv_loop fuel e b acc r = Ok (l, x) -> x = [].
Proof.
  induction fuel; intros acc r l x E. discriminate E. cbn [kv_loop] in E.
  destruct (decode_text e true b r) as [[k r1]| |] eqn:K; cbn [as_ferr bind] in E; try discriminate E.
  destruct (decode_text e true b r1) as [[w r2]| |] eqn:W; cbn [as_ferr bind] in E; try discriminate E.
  destruct ((d_read k =? 0) || (d_read w =? 0)) eqn:Z; [|eapply IHfuel; exact E]. injection E as <- <-. apply orb_true_iff in Z as [Z|Z]; apply N.eqb_eq in Z.
  - apply nothing_read in K; auto. subst. eapply empty_read; eauto.
  - eapply nothing_read; eauto.
Qed.
Lemma all_end : forall inflate v o fuel u acc r l y, read_all inflate fuel v u o acc r = Ok (l, y) -> y = [].
Proof.
  intros inflate v o. induction fuel as [|fuel IH]; intros u acc r l y E. discriminate E. cbn [read_all] in E.
  destruct (read_frame _ _ v u o r) as [[p r']| |] eqn:R; cbn [bind] in *; try discriminate E. destruct p; try (eapply IH; exact E).
  injection E as <- <-. eapply end_rest; eauto.
Qed.

Definition leaves (f : frame) : Prop :=
  match f with FUrl _ _ => True | FComment _ e _ _ _ | FUnsync _ e _ _ _ => e = UTF16 | _ => False end.
Definition ends (p : parsed) : Prop := match p with Ok (Some f, more) => more = [] \/ leaves f | _ => True end.
Ltac en :=
  cbv beta iota zeta;
  match goal with
  | |- ends (bind (dec_rest ?e ?r) _) => let X := fresh in let d := fresh "d" in destruct (dec_rest e r) as [[d ?]| |] eqn:X; cbn [bind]; [apply dec_rest_all in X; subst|exact I|exact I]
  | |- ends (bind (dec_term ?e ?r) _) => let d := fresh "d" in destruct (dec_term e r) as [[d ?]| |]; cbn [bind]; [|exact I|exact I]
  | |- ends (bind (from_opt (read_exact ?n ?r) _) _) => destruct (read_exact n r) as [[? ?]|]; cbn [from_opt bind]; [|exact I]
  | |- ends (bind (from_opt (read_be ?n ?r) _) _) => destruct (read_be n r) as [[? ?]|]; cbn [from_opt bind]; [|exact I]
  | |- ends (bind (from_opt (read_u8 ?r) _) _) => destruct (read_u8 r) as [[? ?]|]; cbn [from_opt bind]; [|exact I]
  | |- ends (bind (from_opt ?x _) _) => destruct x; cbn [from_opt bind]; [|exact I]
  | |- ends (Ok (Some _, [])) => left; reflexivity
  | |- ends (Ok (None, _)) => exact I
  | |- ends (Err _) => exact I
  | |- ends (if ?c then _ else _) => destruct c
  | |- ends (bind ?z _) => destruct z as [?| |]; cbn [bind]; [|exact I|exact I]
  end.
Lemma ends_content : forall kids id fl v m c, (forall x l y, kids x = Ok (l, y) -> y = []) -> ends (parse_content kids id fl v m c).
Proof.
  intros kids id fl v m c K. unfold parse_content. cbv zeta.
  assert (L : forall mk, (forall e a b d, e = UTF16 -> leaves (mk e a b d)) -> ends (parse_lang mk v c)).
  { intros mk Hm. unfold parse_lang. destruct c as [|b r]; cbn [read_u8]. exact I. destruct (verify_encoding b v) as [e| |]; cbn [bind]; try exact I.
    en. en. destruct (match e with UTF16 => _ | _ => _ end) as [be|] eqn:B.
    - destruct (as_ferr _ _) as [[[s n] x]| |]; cbn [bind]; try exact I. right. apply Hm. destruct e; auto; discriminate B.
    - en. en. }
  repeat match goal with |- ends (if ?x then _ else _) => destruct x end.
  - unfold parse_picture. en. en. en. destruct a. en. en. en.
  - unfold parse_user_text. destruct c as [|b r]; cbn [read_u8]. exact I. destruct (verify_encoding b v) as [e| |]; cbn [bind]; try exact I. en. destruct e; [en; en| |en; en|en; en].
    match goal with |- ends (match ?x with [] => _ | _ :: _ => _ end) => destruct x end; [en|]. en. en. en.
  - unfold parse_user_url. destruct c as [|b r]; cbn [read_u8]. exact I. destruct (verify_encoding b v) as [e| |]; cbn [bind]; try exact I. en. en. en.
  - apply L. intros; subst; reflexivity.
  - apply L. intros; subst; reflexivity.
  - unfold parse_key_value. en. destruct (verify_encoding _ v) as [e| |]; cbn [bind]; try exact I. en. en. en. destruct (as_ferr _ _) as [[w r]| |]; cbn [bind]; try exact I.
    destruct (kv_loop _ _ _ _ _) as [[l9 x]| |] eqn:KV; cbn [bind]; try exact I. apply kv_end in KV. subst. en.
  - unfold parse_ufid. en. destruct (d_content d); [destruct (is_best m); en|en].
  - unfold parse_rva2. en. en. en.
  - unfold parse_owne. destruct c as [|b r]; cbn [read_u8]. exact I. en. en. en. en. en. en.
  - unfold parse_etco. destruct c as [|b r]; cbn [read_u8]. exact I. en. en. en.
  - unfold parse_priv. destruct (dec_term _ _) as [[? ?]| |]; try en; exact I.
  - unfold parse_time. en. destruct (enc_of_u8 _). 2: { en; en. } en. destruct (ts_parse _ m) as [[t|]| |]; try en; try exact I.
  - unfold parse_text. destruct c as [|b r]; cbn [read_u8]. exact I. destruct (verify_encoding b v) as [e| |]; cbn [bind]; try exact I. en. en.
  - unfold parse_text. destruct c as [|b r]; cbn [read_u8]. exact I. destruct (verify_encoding b v) as [e| |]; cbn [bind]; try exact I. en. en.
  - unfold parse_url. en. en. en. right. exact I.
  - unfold parse_popm. en. en. en.
  - unfold parse_chap. en. exact I. en. en. en. en. en. cbv beta iota zeta. destruct (kids _) as [[l8 x9]| |] eqn:E; cbn [bind]; try exact I. apply K in E. subst. en.
  - unfold parse_ctoc. en. exact I. en. en. en. cbv beta iota zeta. destruct (ctoc_entries _ _) as [[es9 r9]| |]; cbn [bind]; try exact I.
    destruct (kids _) as [[l8 x9]| |] eqn:E; cbn [bind]; try exact I. apply K in E. subst. en.
  - unfold parse_bin. en.
Qed.
Lemma extras_place : forall fl size r fl' size' r', read_extras fl size r = Ok (fl', size', r') -> exists x, r = x ++ r' /\ lenN x + size' = size.
Proof.
  intros fl size r fl' size' r' E. unfold read_extras in E.
  assert (U : forall s (r : bytes) b r1, s <? 1 = false -> read_u8 r = Some (b, r1) -> r = [b] ++ r1 /\ lenN [b] + (s - 1) = s).
  { intros s r0 b r1 Hs Hr. destruct r0; [discriminate Hr|]. injection Hr as <- <-. split; auto. change (lenN [n]) with 1. lia. }
  set (s1 := match ff_encryption fl with Some _ => _ | None => _ end) in E.
  assert (S1 : forall a b c, s1 = Ok (a, b, c) -> exists x, r = x ++ c /\ lenN x + b = size).
  { intros a b c H. subst s1. destruct (ff_encryption fl). 2: { injection H as <- <- <-. exists []. auto. }
    destruct (size <? 1) eqn:Z; [discriminate H|]. destruct (read_u8 r) as [[x r1]|] eqn:R; cbn [from_opt bind] in H; [|discriminate H]. injection H as <- <- <-. exists [x]. eauto. }
  destruct s1 as [[[f1 z1] r1]| |]; cbn [bind] in E; try discriminate E. destruct (S1 _ _ _ eq_refl) as (x1 & X1 & L1). clear S1.
  set (s2 := match ff_group f1 with Some _ => _ | None => _ end) in E.
  assert (S2 : forall a b c, s2 = Ok (a, b, c) -> exists x, r1 = x ++ c /\ lenN x + b = z1).
  { intros a b c H. subst s2. destruct (ff_group f1). 2: { injection H as <- <- <-. exists []. auto. }
    destruct (z1 <? 1) eqn:Z; [discriminate H|]. destruct (read_u8 r1) as [[x r2]|] eqn:R; cbn [from_opt bind] in H; [|discriminate H]. injection H as <- <- <-. exists [x]. eauto. }
  destruct s2 as [[[f2 z2] r2]| |]; cbn [bind] in E; try discriminate E. destruct (S2 _ _ _ eq_refl) as (x2 & X2 & L2). clear S2.
  destruct (_ || _). 2: { injection E as <- <- <-. exists (x1 ++ x2). rewrite <- app_assoc, <- X2. split; auto. rewrite lenN_app. lia. }
  destruct (z2 <? 4) eqn:Z; [discriminate E|]. unfold read_be in E. destruct (read_exact 4 r2) as [[y r3]|] eqn:R; cbn [from_opt bind] in E; [|discriminate E].
  apply read_exact_spec in R as (R & Ly). injection E as <- <- <-. exists (x1 ++ x2 ++ y). rewrite <- !app_assoc, <- R, <- X2. split; auto. rewrite !lenN_app. lia.
Qed.
(** After a frame the next one is looked for right behind its content, for all kinds of frames except links, and comments and
    lyrics in UTF-16. *)
Theorem C147_place : forall inflate fuel v u o r id fl size r1 f rest,
  (if is_v2 v then parse_v2_header r else parse_header (is_v4 v) (fo_implicit o) r) = HOk id fl size r1 ->
  read_frame inflate (read_all inflate fuel v false o []) v u o r = Ok (PNext f, rest) ->
  rest = dropN size r1 \/ leaves f.
Proof.
  intros inflate fuel v u o r id fl size r1 f rest H E. unfold read_frame in E. rewrite H in E.
  destruct (negb _ && _); [discriminate E|]. cbv zeta in E. destruct (size =? 0). { destruct (is_strict _); discriminate E. }
  destruct (read_extras _ size r1) as [[[fl' size'] r']| |] eqn:X; cbn [bind] in E; try discriminate E. apply extras_place in X as (x & X & L).
  assert (D : dropN size r1 = dropN size' r').
  { rewrite X, <- L. rewrite dropN_app_ge by lia. f_equal. lia. }
  rewrite D. clear D. destruct (size' =? 0); [discriminate E|]. set (plain := if ff_unsync fl' then _ else _) in E.
  destruct (ff_compression fl').
  - destruct (inflate plain) as [c|]; cbn [from_opt bind] in E; try discriminate E. destruct (is_some _).
    + destruct (encrypted_frame _ _ _ _); cbn [bind] in E; try discriminate E. injection E as _ <-. auto.
    + destruct (content_frame _) as [[p m]| |]; cbn [bind] in E; try discriminate E. injection E as _ <-. auto.
  - destruct (is_some _).
    + destruct (encrypted_frame _ _ _ _); cbn [bind] in E; try discriminate E. injection E as _ <-. auto.
    + pose proof (ends_content (read_all inflate fuel v false o []) id fl' v (fo_mode o) plain) as En.
      assert (K : forall x l y, read_all inflate fuel v false o [] x = Ok (l, y) -> y = []) by (intros; eapply all_end; eauto). specialize (En K).
      destruct (parse_content _ _ _ _ _ plain) as [[[g|] m]| |]; cbn [content_frame bind] in E; try discriminate E. cbn [ends] in En. injection E as <- <-.
      destruct En as [-> |En]; auto. left. destruct (ff_unsync fl'); reflexivity.
Qed.
Print Assumptions C147_place.
(** A link with something behind its end: what follows is taken for a frame. *)
Definition link_tag : bytes := $"WOAR" ++ [0; 0; 0; 14; 0; 0] ++ $"a" ++ [0] ++ $"TIT2" ++ [0; 0; 0; 2; 0; 0; 0; 65].
Theorem C147_link_refuted : ~ forall inflate fuel v u o r id fl size r1 f rest,
  (if is_v2 v then parse_v2_header r else parse_header (is_v4 v) (fo_implicit o) r) = HOk id fl size r1 ->
  read_frame inflate (read_all inflate fuel v false o []) v u o r = Ok (PNext f, rest) -> rest = dropN size r1.
Proof.
  intro H. specialize (H (fun _ => None) 1%nat V4 false ex_opts link_tag (Valid ($"WOAR")) ff_default 14 ($"a" ++ [0] ++ $"TIT2" ++ [0; 0; 0; 2; 0; 0; 0; 65])
    (FUrl (head ($"WOAR")) ($"a")) ($"TIT2" ++ [0; 0; 0; 2; 0; 0; 0; 65])).
  specialize (H ltac:(vm_compute; reflexivity) ltac:(vm_compute; reflexivity)). vm_compute in H. discriminate H.
Qed.
Print Assumptions C147_link_refuted.
(** One byte behind the end of a link loses the frame that follows; a comment that was written by the program itself does the same. *)
Theorem C147_next_frame_refuted : ~ forall c, lenN c < 128 ->
  match parse_id3v2 (fun _ => None) (mkHdr V4 no_flags (22 + lenN c) 0) (mkFO Relaxed true true) ($"WOAR" ++ [0; 0; 0; lenN c; 0; 0] ++ c ++ $"TIT2" ++ [0; 0; 0; 2; 0; 0; 0; 65]) with
  | Ok (t, _) => In (FText (head ($"TIT2")) Latin1 ($"A")) (t_frames t) | _ => False end.
Proof.
  intro H. specialize (H ($"a" ++ [0; 0]) ltac:(reflexivity)).
  match type of H with match ?z with _ => _ end => assert (X : z = Ok (mkT V4 no_flags [FUrl (head ($"WOAR")) ($"a")], [])) by (vm_compute; reflexivity) end.
  rewrite X in H. cbn [t_frames In] in H. destruct H as [H|[]]. discriminate H.
Qed.
Print Assumptions C147_next_frame_refuted.
Theorem C147_comment_refuted : ~ forall e l d c f fs, str_ok c ->
  reread w24 no_flags (mkFO Relaxed true true) [FComment (head ($"COMM")) e l d c; f] = Some fs -> In f fs.
Proof.
  intro H. specialize (H UTF16 ($"eng") ($"x") [65; 0; 256] (FText (head ($"TIT2")) Latin1 ($"A")) [FComment (head ($"COMM")) UTF16 ($"eng") ($"x") ($"A")]).
  assert (X : reread w24 no_flags (mkFO Relaxed true true) [FComment (head ($"COMM")) UTF16 ($"eng") ($"x") [65; 0; 256]; FText (head ($"TIT2")) Latin1 ($"A")] =
    Some [FComment (head ($"COMM")) UTF16 ($"eng") ($"x") ($"A")]) by (vm_compute; reflexivity).
  destruct (H ltac:(apply (all_b (fun c => c <? 10000)); [intros y Hy; apply scalar_bound; lia|reflexivity]) X) as [I|[]]. discriminate I.
Qed.
Print Assumptions C147_comment_refuted.
