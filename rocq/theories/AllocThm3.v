(** C233: the limit for allocations in [as_bytes] of frames. *)
From Verif Require Import Base BaseLemmas Str TextModel TextSpec TextProof PictureModel FrameModel AllocModel AllocThm2.
From Verif Require Import FrameWriteModel.

Definition as_bytes (limit : N) (w : wopts) (f : frame) : res (lerr ferr) bytes := frame_bytes_lim (frame_bytes w) limit f.
(** What the documentation says: the error comes exactly if the result would be longer than the limit. *)
Definition as_documented (limit : N) (w : wopts) (f : frame) : Prop :=
  forall b, frame_bytes w f = Ok b -> as_bytes limit w f = if limit <? lenN b then Err Limit else Ok b.

Lemma latin_len : forall s k lossy b, latin1_encode_at k lossy s = Ok b -> lenN b = lenN s.
Proof.
  induction s as [|c s IH]; intros k lossy b H; cbn in H; [injection H as <-; reflexivity|].
  destruct (if c <=? 255 then _ else _); try discriminate. cbn [bind] in H. destruct (latin1_encode_at _ _ s) as [r| |] eqn:E; try discriminate. cbn [bind] in H.
  injection H as <-. rewrite !lenN_cons, (IH _ _ _ E). reflexivity.
Qed.
Lemma enc_latin_len : forall w s b, enc_text w Latin1 s true = Ok b -> lenN b = lenN s + 1.
Proof.
  unfold enc_text. cbn [encode]. intros w s b H. unfold latin1_encode in H. destruct (latin1_encode_at 0 (w_lossy w) s) as [r| |] eqn:E; try discriminate.
  cbn in H. injection H as <-. rewrite lenN_app, (latin_len _ _ _ _ E). reflexivity.
Qed.
Lemma utf8_at_least : forall s, lenN s <= lenN (utf8_enc s).
Proof.
  induction s as [|c s IH]; [apply N.le_refl|]. change (utf8_enc (c :: s)) with (utf8_char c ++ utf8_enc s). rewrite lenN_app, lenN_cons. pose proof (utf8_char_len c). unfold lenN at 2. lia.
Qed.
Lemma sort_len : forall l, lenN (ev_sort l) = lenN l.
Proof.
  assert (I : forall x l, lenN (ev_insert x l) = lenN l + 1).
  { induction l as [|y l IH]; [reflexivity|]. cbn. destruct (_ <=? _); rewrite !lenN_cons; [lia|]. rewrite IH. lia. }
  induction l as [|x l IH]; [reflexivity|]. cbn [ev_sort fold_right]. rewrite I. fold (ev_sort l). rewrite IH, lenN_cons. lia.
Qed.
Lemma flat_five : forall l, lenN (flat_map (fun e => ev_type e :: be_enc 4 (ev_time e)) l) = 5 * lenN l.
Proof. induction l as [|e l IH]; [reflexivity|]. cbn [flat_map]. rewrite lenN_app, !lenN_cons, be_enc_len, IH. lia. Qed.

(** C233. With a limit a frame gives the bytes that it gives without, or none; other frames have no limit. *)
Theorem C233_same : forall limit w f b, as_bytes limit w f = Ok b -> frame_bytes w f = Ok b.
Proof.
  intros limit w f b H. unfold as_bytes, frame_bytes_lim in H. destruct (early f); [now apply (proj1 (lift_ok _ _ _ _)) in H|].
  destruct (frame_request f); [|now apply (proj1 (lift_ok _ _ _ _)) in H]. destruct (allocate limit n); try discriminate. now apply (proj1 (lift_ok _ _ _ _)) in H.
Qed.
Theorem C233_unlimited : forall limit w f, frame_request f = None -> as_bytes limit w f = lift (frame_bytes w f).
Proof. intros. unfold as_bytes, frame_bytes_lim. rewrite H. now destruct (early f). Qed.
(** Event timing codes are as documented. *)
Theorem C233_etco : forall limit w h t l, as_documented limit w (FEtco h t l).
Proof.
  intros limit w h t l b H. cbn [frame_bytes leaf_bytes] in H. injection H as <-. unfold as_bytes, frame_bytes_lim. cbn [early frame_request frame_bytes leaf_bytes]. unfold allocate.
  assert (L : lenN (etco_bytes t l) = 1 + lenN l * 5) by (unfold etco_bytes; rewrite lenN_cons, flat_five, sort_len; lia).
  rewrite L. now destruct (limit <? 1 + lenN l * 5).
Qed.
(** Private frames and popularimeters are never more than a byte over the limit. *)
Theorem C233_priv_bound : forall limit w h o d b, as_bytes limit w (FPriv h o d) = Ok b -> lenN b <= limit + 1.
Proof.
  intros limit w h o d b H. unfold as_bytes, frame_bytes_lim in H. cbn [early frame_request frame_bytes leaf_bytes] in H. destruct (allocate limit _) as [u| |] eqn:E; try discriminate.
  apply alloc_ok in E. cbn [bind] in H. apply (proj1 (lift_ok _ _ _ _)) in H. unfold owner_bytes in H. destruct (enc_text w Latin1 o true) as [x| |] eqn:EX; try discriminate.
  cbn [bind] in H. injection H as <-. apply enc_latin_len in EX. rewrite lenN_app, EX. pose proof (utf8_at_least o). lia.
Qed.
Lemma drop_zeros_len : forall l, lenN (drop_zeros l) <= lenN l.
Proof. induction l as [|x l IH]; [apply N.le_refl|]. cbn [drop_zeros]. destruct x; rewrite ?lenN_cons; try lia. Qed.
Theorem C233_popm_bound : forall limit w h m r c b, as_bytes limit w (FPopm h m r c) = Ok b -> lenN b <= limit + 1.
Proof.
  intros limit w h m r c b H. unfold as_bytes, frame_bytes_lim in H. cbn [early frame_request frame_bytes leaf_bytes] in H. destruct (allocate limit _) as [u| |] eqn:E; try discriminate.
  apply alloc_ok in E. cbn [bind] in H. apply (proj1 (lift_ok _ _ _ _)) in H. unfold popm_bytes in H.
  assert (Q : lenN (if c <=? U32_MAX then be_enc 4 c else drop_zeros (be_enc 8 c)) <= 8).
  { destruct (c <=? U32_MAX); [rewrite be_enc_len; lia|]. pose proof (drop_zeros_len (be_enc 8 c)) as Z. rewrite be_enc_len in Z. exact Z. }
  revert H Q. generalize (if c <=? U32_MAX then be_enc 4 c else drop_zeros (be_enc 8 c)). intros q H Q.
  destruct (enc_text w Latin1 m true) as [x| |] eqn:EX; try discriminate. cbn [bind] in H. injection H as <-. apply enc_latin_len in EX. pose proof (utf8_at_least m).
  rewrite lenN_app, EX, lenN_cons. lia.
Qed.
(** The terminator is not counted: a private frame of the limit and one byte is written. *)
Theorem C233_priv_refuted : forall limit w h d, lenN d = limit -> exists b, as_bytes limit w (FPriv h [] d) = Ok b /\ lenN b = limit + 1 /\ ~ as_documented limit w (FPriv h [] d).
Proof.
  intros limit w h d L. exists (0 :: d).
  assert (F : frame_bytes w (FPriv h [] d) = Ok (0 :: d)) by reflexivity.
  assert (E : as_bytes limit w (FPriv h [] d) = Ok (0 :: d)).
  { unfold as_bytes, frame_bytes_lim. cbn [early frame_request]. rewrite alloc_yes; [now rewrite F|]. change (lenN (utf8_enc [])) with 0. lia. }
  split; [exact E|]. split; [rewrite lenN_cons; lia|]. intros D. specialize (D _ F). rewrite E, lenN_cons in D. replace (limit <? 1 + lenN d) with true in D by (symmetry; apply N.ltb_lt; lia). discriminate.
Qed.
(** Owners are counted in UTF-8: a frame that fits is refused. *)
Theorem C233_latin_refuted : forall w h d, as_bytes (lenN d + 2) w (FPriv h [233; 233] d) = Err Limit /\ as_bytes (lenN d + 3) w (FPriv h [233; 233] d) = Err Limit /\
  frame_bytes w (FPriv h [233; 233] d) = Ok (233 :: 233 :: 0 :: d) /\ ~ as_documented (lenN d + 3) w (FPriv h [233; 233] d).
Proof.
  intros w h d.
  assert (F : frame_bytes w (FPriv h [233; 233] d) = Ok (233 :: 233 :: 0 :: d)) by reflexivity.
  assert (E : forall n, n < lenN d + 4 -> as_bytes n w (FPriv h [233; 233] d) = Err Limit).
  { intros n Hn. unfold as_bytes, frame_bytes_lim. cbn [early frame_request]. unfold allocate. change (lenN (utf8_enc [233; 233])) with 4.
    now replace (n <? 4 + lenN d) with true by (symmetry; apply N.ltb_lt; lia). }
  split; [apply E; lia|]. split; [apply E; lia|]. split; [exact F|]. intros D. specialize (D _ F). rewrite E in D by lia. rewrite !lenN_cons in D.
  replace (lenN d + 3 <? _) with false in D by (symmetry; apply N.ltb_ge; lia). discriminate.
Qed.
(** Three bytes too many are asked for with a small counter, one too few with a large one. *)
Theorem C233_popm_refuted : forall w h r, as_bytes 8 w (FPopm h [] r 0) = Err Limit /\ frame_bytes w (FPopm h [] r 0) = Ok [0; r; 0; 0; 0; 0] /\
  as_bytes 9 w (FPopm h [] r (2 ^ 56)) = Ok [0; r; 1; 0; 0; 0; 0; 0; 0; 0].
Proof. intros. repeat split. Qed.
(** Only the identifier of a chapter or a table of contents is counted. *)
Theorem C233_ctoc_refuted : forall w h t o e, Forall (fun c => c < 256) e -> as_bytes 16 w (FCtoc h [] t o [e] []) = Ok (0 :: N.lor (if o then 1 else 0) (if t then 2 else 0) :: 1 :: e ++ [0]).
Proof.
  intros w h t o e F. unfold as_bytes, frame_bytes_lim. cbn [early frame_request]. rewrite alloc_yes by (change (lenN (utf8_enc [])) with 0; lia). cbn [bind].
  change (255 <? lenN [e]) with false. cbn [frame_bytes]. change (255 <? lenN [e]) with false. cbv iota. change (enc_text w Latin1 [] true) with (@Ok ferr bytes [0]). cbn [bind concat_res].
  assert (X : enc_text w Latin1 e true = Ok (e ++ [0])).
  { unfold enc_text. cbn [encode]. unfold latin1_encode. assert (G : forall k, latin1_encode_at k (w_lossy w) e = Ok e).
    { induction F as [|c e Hc F IH]; intros k; [reflexivity|]. cbn. replace (c <=? 255) with true by (symmetry; apply N.leb_le; lia). cbn [bind]. now rewrite IH. }
    now rewrite G. }
  rewrite X. cbn [bind]. rewrite app_nil_r. unfold items. destruct (w_v23 w); cbn; rewrite app_nil_r; reflexivity.
Qed.
Theorem C233_chap_refuted : forall w h, w_v23 w = false -> exists b, as_bytes 16 w (FChap h [] (0, 0) (0, 0) [FBin (new_header ($"ABCD")) (repeat 7 100)]) = Ok b /\ lenN b = 127.
Proof.
  intros [v l n p] h V. cbn in V. subst v.
  exists (repeat 0 17 ++ $"ABCD" ++ [0; 0; 0; 100; 0; 0] ++ repeat 7 100). split; vm_compute; reflexivity.
Qed.

(** It is counted exactly: a chapter whose identifier has sixteen bytes less than the limit is written, with a longer one it is refused. *)
Theorem C233_identifier : forall limit w h id a b l, Forall (fun c => c < 128) id -> as_bytes limit w (FChap h id a b l) = if limit <? lenN id + 16 then Err Limit else lift (frame_bytes w (FChap h id a b l)).
Proof.
  intros limit w h id a b l A. unfold as_bytes, frame_bytes_lim. cbn [early frame_request].
  assert (U : utf8_enc id = id) by (unfold utf8_enc; induction A as [|c s Hc A IH]; [reflexivity|]; cbn [flat_map]; rewrite IH; unfold utf8_char; replace (c <? 128) with true by (symmetry; apply N.ltb_lt; lia); reflexivity).
  rewrite U. unfold allocate. now destruct (limit <? lenN id + 16).
Qed.

Example C233_example : forall w h, as_bytes 6 w (FEtco h MS [mkEv 1 2]) = Ok [2; 1; 0; 0; 0; 2] /\ as_bytes 5 w (FEtco h MS [mkEv 1 2]) = Err Limit /\ as_bytes 0 w (FUfid h ($"a") [1; 2]) = Ok [97; 0; 1; 2].
Proof. intros. repeat split. Qed.
