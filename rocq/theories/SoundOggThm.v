(** * C248 for OGG: saving comments and what is read about the audio *)
From Verif Require Import BaseLemmas StrLemmas TextProof PictureThm OggSpec OggCrcProof OggProof OggReadProof OggPacketsProof OggPagProof OggFinal VorbisThm FlacMoveThm RfindThm.
From Verif Require Import OggFileModel OggFileProof OggFileThm OggFileThm2 OggFileThm3.

(** The same, but for the bit rates that are measured: that of the file, and in Opus files (and Speex files without a nominal one) that of the audio *)
Definition same_ogg (p q : ogg_props) : Prop :=
  match p, q with
  | POpus p, POpus q => exists overall audio, q = mkOp (op_version p) (op_channels p) (op_mask p) (op_rate p) (op_gain p) (op_duration p) overall audio
  | PVorbis p, PVorbis q => exists overall, q = mkVp (vp_version p) (vp_channels p) (vp_rate p) (vp_max p) (vp_nominal p) (vp_min p) (vp_duration p) overall (vp_audio p)
  | PSpeex p, PSpeex q => exists overall audio, q = mkSp (sp_version p) (sp_rate p) (sp_mode p) (sp_channels p) (sp_vbr p) (sp_nominal p) (sp_duration p) overall audio /\ (positive32 (sp_nominal p) = true -> audio = sp_audio p)
  | _, _ => False
  end.
Definition ogg_properties (f : ogg_format) (data : bytes) (first : page) (p : packets) (pos : N) : res ogg_error ogg_props :=
  match f with
  | Opus => let? x := opus_properties data first p pos in Ok (POpus x)
  | OVorbis => let? x := vorbis_properties data first p pos in Ok (PVorbis x)
  | Speex => let? x := speex_properties data first p pos in Ok (PSpeex x)
  end.
Lemma unwrap_whole : forall pk i b, nth_error pk i = Some b -> pk_unwrap (whole pk) (N.of_nat i) = Ok b.
Proof. intros pk i b H. destruct (pk_whole pk) as [WF AB]. fold (whole pk) in WF, AB. rewrite unwrap_nth by exact WF. now rewrite AB, H. Qed.
Definition rel {A} (R : A -> A -> Prop) (r r' : res ogg_error A) : Prop := forall p, r = Ok p -> exists q, r' = Ok q /\ R p q.
Lemma rel_bind : forall A B (R : A -> A -> Prop) (e : res ogg_error B) f f', (forall a, e = Ok a -> rel R (f a) (f' a)) -> rel R (bind e f) (bind e f').
Proof. intros A B R [a|e|] f f' H p E; cbn [bind] in *; try discriminate E. now apply (H a). Qed.
Lemma rel_ok : forall A (R : A -> A -> Prop) p q, R p q -> rel R (Ok p) (Ok q).
Proof. intros A R p q H x E. injection E as <-. eauto. Qed.
Lemma rel_no : forall A (R : A -> A -> Prop) r r', (forall p, r <> Ok p) -> rel R r r'.
Proof. intros A R r r' H p E. now apply H in E. Qed.
Lemma rel_map : forall A B (R : A -> A -> Prop) (S : B -> B -> Prop) g r r', (forall p q, R p q -> S (g p) (g q)) -> rel R r r' -> rel S (let? x := r in Ok (g x)) (let? x := r' in Ok (g x)).
Proof. intros A B R S g [a|e|] r' G H p E; cbn [bind] in E; try discriminate E. injection E as <-. destruct (H a eq_refl) as (q & -> & Q). exists (g q). auto. Qed.
Lemma props_alike : forall f data data' first first' id c c' rest pos pos' l l',
  find_last_page data pos = Ok l -> find_last_page data' pos' = Ok l' -> pg_abgp l' = pg_abgp l -> pg_abgp first' = pg_abgp first ->
  lenN data' < 2 ^ 59 -> lenN id + lenN c' <= lenN data' ->
  rel same_ogg (ogg_properties f data first (whole (id :: c :: rest)) pos) (ogg_properties f data' first' (whole (id :: c' :: rest)) pos').
Proof.
  intros f data data' first first' id c c' rest pos pos' l l' L L' EL EF LD LC.
  assert (U0 : forall c, pk_unwrap (whole (id :: c :: rest)) 0 = Ok id) by (intros; apply (unwrap_whole (id :: c0 :: rest) 0); reflexivity).
  assert (U1 : forall c, pk_unwrap (whole (id :: c :: rest)) 1 = Ok c) by (intros; apply (unwrap_whole (id :: c0 :: rest) 1); reflexivity).
  change (2 ^ 59) with 576460752303423488 in LD.
  assert (M8 : forall E n, n <= lenN data' -> mul64 (E := E) n 8 = Ok (n * 8)) by (intros E n LN; unfold mul64, U64_MAX; destruct (N.ltb_spec 18446744073709551615 (n * 8)); auto; lia).
  assert (B8 : forall n, n <= lenN data' -> bits n = n * 8) by (intros n LN; unfold bits, U64_MAX; lia).
  destruct f; unfold ogg_properties.
  - apply (rel_map _ _ (fun p q => same_ogg (POpus p) (POpus q))); [auto|]. unfold opus_properties. rewrite !U0. cbn [bind]. destruct (lenN id <? 8); [now apply rel_no|].
    do 6 (apply rel_bind; intros [? ?] _). destruct (_ || _)%bool; [now apply rel_no|]. destruct (opus_mask _); [|now apply rel_no]. rewrite L, L', EL, EF.
    destruct (0 <? _); [|apply rel_ok; eexists _, _; reflexivity]. apply rel_bind. intros ms _. apply rel_bind. intros len _. rewrite !U1. cbn [bind].
    destruct (lenN data <? lenN id + lenN c); [now apply rel_no|]. destruct (N.ltb_spec (lenN data') (lenN id + lenN c')); [lia|]. rewrite !(M8 _ (lenN data')), (M8 _ (lenN data' - _)) by lia. cbn [bind].
    destruct (mul64 (lenN data) 8) as [a| |]; cbn [bind]; try now apply rel_no. destruct (mul64 (lenN data - _) 8) as [b| |]; cbn [bind].
    2, 3: apply rel_no; intros p; destruct (div64 a len); discriminate.
    unfold div64. destruct (len =? 0); cbn [bind]; [now apply rel_no|]. apply rel_ok. eexists _, _. reflexivity.
  - apply (rel_map _ _ (fun p q => same_ogg (PVorbis p) (PVorbis q))); [auto|]. unfold vorbis_properties. rewrite !U0. cbn [bind]. destruct (lenN id <? 7); [now apply rel_no|].
    do 6 (apply rel_bind; intros [? ?] _). rewrite L, L', EL, EF. apply rel_bind. intros [known len] _. apply rel_ok. eexists. reflexivity.
  - apply (rel_map _ _ (fun p q => same_ogg (PSpeex p) (PSpeex q))); [auto|]. unfold speex_properties. rewrite !U0. cbn [bind]. destruct (lenN id <? 80); [now apply rel_no|].
    apply rel_bind; intros [? ?] _. destruct (1 <? _); [now apply rel_no|]. do 5 (apply rel_bind; intros [? ?] _). destruct (_ && _)%bool; [now apply rel_no|]. do 3 (apply rel_bind; intros [? ?] _).
    rewrite L, L', EL, EF. apply rel_bind. intros [known len] EK. 
    assert (BL : len <= 18446744073709551615).
    { destruct (_ && _)%bool; [|injection EK as _ <-; lia]. destruct (mul64 _ 1000) as [ms| |]; cbn [bind] in EK; try discriminate EK. unfold div_round, div64, U64_MAX in EK. destruct (N.ltb_spec 18446744073709551615 (ms + n1 / 2)); [discriminate EK|].
      destruct (N.eqb_spec n1 0); cbn [bind] in EK; [discriminate EK|]. injection EK as _ <-. pose proof (N.div_le_upper_bound (ms + n1 / 2) n1 (ms + n1 / 2) ltac:(auto)). assert (1 * (ms + n1 / 2) <= n1 * (ms + n1 / 2)) by (apply N.mul_le_mono_r; lia). lia. }
    assert (BH : len / 2 <= 9223372036854775807). { apply N.div_le_upper_bound in BL || idtac. pose proof (N.div_mod len 2 ltac:(discriminate)). pose proof (N.mod_lt len 2 ltac:(discriminate)). lia. }
    destruct (positive32 n5) eqn:PN.
    + unfold div64. destruct (len =? 0); cbn [bind]; [now apply rel_no|]. apply rel_ok. eexists _, _. split; [reflexivity|]. cbn [sp_nominal sp_audio]. auto.
    + set (s1 := lenN data - _). set (s2 := lenN data' - _).
      assert (D8 : forall n, n <= lenN data' -> len <> 0 -> exists q, @div_round ogg_error (bits n) len = Ok q).
      { intros k LK NZ. rewrite B8 by auto. unfold div_round, div64, U64_MAX. destruct (N.ltb_spec 18446744073709551615 (k * 8 + len / 2)); [lia|]. destruct (N.eqb_spec len 0); [contradiction|]. eauto. }
      destruct (div_round (bits (lenN data)) len) as [a| |] eqn:D1; cbn [bind]; try now apply rel_no.
      assert (NZ : len <> 0). { intros ->. unfold div_round, div64 in D1. change (0 =? 0) with true in D1. match type of D1 with (if ?b then _ else _) = _ => destruct b; discriminate D1 end. }
      destruct (D8 (lenN data') ltac:(lia) NZ) as (q & ->). destruct (D8 s2 ltac:(unfold s2; lia) NZ) as (q2 & ->). cbn [bind].
      destruct (div_round (bits s1) len) as [b| |]; cbn [bind]; try now apply rel_no. apply rel_ok. eexists _, _. split; [reflexivity|]. cbn [sp_nominal]. congruence.
Qed.

(** The file that is written has the same layout. *)
Lemma delace_first : forall segs P a l r, delace P segs = (a :: l, r) -> P <= a.
Proof. induction segs as [|s segs IH]; intros P a l r H; cbn [delace] in H; [discriminate H|]. destruct (s <? 255). { destruct (delace 0 segs). injection H as <- _ _. lia. } apply IH in H. lia. Qed.
Lemma first_ends : forall p np pk p0 r, holds (p :: np) (p0 :: pk) -> lenN p0 < 255 -> (forall q, In q (p :: np) -> packet_ends_on (pg_segs q) -> pg_abgp q = r) -> pg_abgp p = r.
Proof.
  intros p np pk p0 r (O & D & _) L H. apply H; [now left|]. apply Forall_cons_iff in O as [O _]. destruct O as (_ & _ & _ & _ & _ & (S & _) & _). cbn [fields f_segs] in S.
  unfold segs_of in D. cbn [flat_map] in D. destruct (pg_segs p) as [|a s]; [destruct (S eq_refl)|]. exists a. split; [now left|]. cbn [app delace map] in D. destruct (N.ltb_spec a 255); auto. apply delace_first in D. lia.
Qed.
Lemma bytes_len : forall ps, Forall page_ok ps -> Forall page_bytes_ok ps -> lenN (bytes_of ps) <= 65307 * lenN ps.
Proof.
  induction ps as [|p ps IH]; intros O B; [vm_compute; discriminate|]. apply Forall_cons_iff in O as [O1 O]. apply Forall_cons_iff in B as [[B1 _] B]. specialize (IH O B). cbn [bytes_of flat_map]. fold (bytes_of ps). rewrite lenN_app, lenN_cons.
  destruct O1 as (_ & _ & _ & _ & _ & (_ & S) & E). cbn [fields f_segs f_content] in S, E. assert (SU : sumN (pg_segs p) <= 255 * lenN (pg_segs p)).
  { clear -B1. induction B1 as [|a s A _ IHs]; [vm_compute; discriminate|]. cbn [sumN]. rewrite lenN_cons. unfold byte_ok in A. lia. }
  unfold as_bytes. rewrite !lenN_app, !le_enc_len. change (lenN OggS) with 4. change (lenN [0]) with 1. change (lenN [pg_flag p]) with 1. change (lenN [lenN (pg_segs p) mod 256]) with 1. lia.
Qed.
Lemma renumber_last : forall ap l n, exists ap' l', renumber n (ap ++ [l]) = ap' ++ [l'] /\ pg_abgp l' = pg_abgp l /\ pg_content l' = pg_content l.
Proof.
  induction ap as [|p ap IH]; intros l n; cbn [app renumber]; [exists []; eexists; split; [reflexivity|]; split; reflexivity|].
  destruct (IH l (n + 1)) as (ap' & l' & -> & H). exists (crc_page (set_seq n p) :: ap'), l'. auto.
Qed.
Lemma saved_layout : forall f t hp ap tail p0 vb extra rest new,
  ogg_layout f hp ap tail p0 vb extra rest -> Forall (fun i => str_ok (fst i) /\ str_ok (snd i)) (vc_items t) ->
  create_metadata_packet (saved_tag vb t) (comment_sig f) (has_framing f) = Ok new ->
  lenN ap + lenN p0 + lenN new + lenN (concat rest) + 3 <= 2 ^ 32 -> lenN p0 < 255 ->
  exists log first np vb' extra', ogg_write f (ogg_data hp ap tail) t = Ok log /\ apply_log (ogg_data hp ap tail) log = ogg_data np (renumber (lenN np) ap) [] /\
    ogg_layout f np (renumber (lenN np) ap) [] p0 vb' extra' rest /\ nth_error np 0 = Some first /\ pg_abgp first = 0 /\ lenN (ogg_data np (renumber (lenN np) ap) []) < 2 ^ 59 /\
    new = comment_sig f ++ le_enc 4 (lenN vb') ++ vb' ++ extra'.
Proof.
  intros f t hp ap tail p0 vb extra rest new L I CP B P0.
  destruct (save_ok f t hp ap tail p0 vb extra rest new L I CP B) as (first & np & log & A1 & A2 & A3 & A4 & A5 & (HN & HS & _ & _ & HZ) & A7 & A8).
  set (ap' := renumber (lenN np) ap) in *. destruct L as [H C F V P BB T]. apply bytes_ok_app in BB as [BB1 BB2].
  destruct (renumber_ok ap (lenN np) P (bytes_pages _ P BB2) A8) as [PO PB]. fold ap' in PO, PB.
  assert (BV : bytes_ok vb).
  { destruct H as (H1 & H2 & H3). apply (bytes_pages _ H1) in BB1. apply content_bytes in BB1. rewrite H3 in BB1. cbn [concat] in BB1.
    apply bytes_ok_app in BB1 as [_ X]. apply bytes_ok_app in X as [X _]. apply bytes_ok_app in X as [_ X]. apply bytes_ok_app in X as [_ X]. apply bytes_ok_app in X as [X _]. auto. }
  set (vb2 := utf8_enc (kept_vendor vb)).
  assert (LV : lenN vb2 < 2 ^ 32). { unfold vb2, kept_vendor. destruct (utf8_dec vb) eqn:E. apply utf8_dec_spec in E as [_ E]; auto. now rewrite E. reflexivity. }
  assert (NX : exists extra2, new = comment_sig f ++ le_enc 4 (lenN vb2) ++ vb2 ++ extra2).
  { unfold create_metadata_packet in CP. destruct (create_comments _) as [u| |]; cbn [bind] in CP; try discriminate. destruct (create_pictures _) as [w| |]; cbn [bind] in CP; try discriminate.
    destruct (_ <? _); [discriminate|]. unfold vendor_bytes in CP. cbn [saved_tag vc_vendor] in CP. fold vb2 in CP. rewrite N.mod_small in CP by auto.
    eexists. rewrite <- app_assoc in CP. symmetry. injection CP as CP. exact CP. }
  destruct NX as [extra2 NX].
  assert (L2 : ogg_layout f np ap' [] p0 vb2 extra2 rest).
  { constructor; auto. now rewrite <- NX.
    apply bytes_ok_app. split; [|].
    - clear -A7 HN. destruct HN as (O & _). induction O; cbn [bytes_of flat_map]. constructor. inversion A7 as [|? ? [X1 X2] X3]; subst. apply bytes_ok_app. split; auto. apply as_bytes_ok; auto. now destruct H.
    - clear -PO PB. induction PO; cbn [bytes_of flat_map]. constructor. inversion PB as [|? ? [X1 X2] X3]; subst. apply bytes_ok_app. split; auto. apply as_bytes_ok; auto. now destruct H.
    - eexists. reflexivity. }
  destruct (first_header np _ [] HN ltac:(discriminate)) as (p & np' & E & _). exists log, p, np, vb2, extra2. split; auto. split; [rewrite A5; unfold ogg_data; now rewrite app_nil_r|]. split; auto. split; [now rewrite E|]. split.
  - rewrite E in HN, HZ. eapply first_ends; eauto.
  - split; auto. unfold ogg_data. rewrite app_nil_r, lenN_app. destruct HN as (HN & _). pose proof (bytes_len np HN A7). pose proof (bytes_len ap' PO PB). assert (lenN ap' = lenN ap) by (unfold ap'; apply renumber_len).
    change (2 ^ 32) with 4294967296 in A8. change (2 ^ 59) with 576460752303423488. fold ap'. lia.
Qed.
Lemma read_parts : forall f o tags hp ap tail x vb extra rest, ogg_layout f hp ap tail (head_sig f ++ x) vb extra rest -> exists first, nth_error hp 0 = Some first /\
  let r := ogg_properties f (ogg_data hp ap tail) (header_page first) (whole ((head_sig f ++ x) :: (comment_sig f ++ le_enc 4 (lenN vb) ++ vb ++ extra) :: rest)) (lenN (bytes_of hp)) in
  (forall p, r = Ok p -> ogg_file_read f o tags true (ogg_data hp ap tail) = with_props (ogg_file_read f o tags false (ogg_data hp ap tail)) p) /\
  (forall t p, ogg_file_read f o tags true (ogg_data hp ap tail) = Ok (t, p) -> r = Ok p).
Proof.
  intros f o tags hp ap tail x vb extra rest L. destruct (read_from_layout f o tags hp ap tail x vb extra rest L) as (first & NF & RF). exists first. split; auto. cbv zeta in RF |- *. unfold ogg_file_read. rewrite RF. clear RF.
  set (r := ogg_properties _ _ _ _ _). split.
  - intros p R. unfold r, ogg_properties in R. destruct tags; [destruct (read_comments _ _ _)|]; cbn [bind]; auto; destruct f; rewrite R; reflexivity.
  - intros t p R. unfold r, ogg_properties. destruct tags; [destruct (read_comments _ _ _)|]; cbn [bind] in R; try discriminate R;
      (destruct f; [destruct (opus_properties _ _ _ _)|destruct (vorbis_properties _ _ _ _)|destruct (speex_properties _ _ _ _)]); cbn [bind] in R |- *; try discriminate R; injection R as _ <-; reflexivity.
Qed.

(** Comments are saved to a file whose first packet is short and whose first page is at position 0, as it should be. If the last page, which
    gets another number and checksum, does not contain the letters OggS, all but the measured bit rates is as before. *)
Theorem C248_ogg_partial : forall f o tags t hp ap l tail x vb extra rest new first told p,
  ogg_layout f hp (ap ++ [l]) tail (head_sig f ++ x) vb extra rest -> lenN (head_sig f ++ x) < 255 -> nth_error hp 0 = Some first -> pg_abgp first = 0 -> no_oggs (as_bytes l ++ tail) = true ->
  Forall (fun i => str_ok (fst i) /\ str_ok (snd i)) (vc_items t) -> create_metadata_packet (saved_tag vb t) (comment_sig f) (has_framing f) = Ok new ->
  lenN (ap ++ [l]) + lenN (head_sig f ++ x) + lenN new + lenN (concat rest) + 3 <= 2 ^ 32 ->
  ogg_file_read f o tags true (ogg_data hp (ap ++ [l]) tail) = Ok (told, p) ->
  exists log l' before, ogg_write f (ogg_data hp (ap ++ [l]) tail) t = Ok log /\ apply_log (ogg_data hp (ap ++ [l]) tail) log = before ++ as_bytes l' /\ pg_content l' = pg_content l /\ pg_abgp l' = pg_abgp l /\
    (no_oggs (as_bytes l') = true -> exists q, same_ogg p q /\
      ogg_file_read f o tags true (apply_log (ogg_data hp (ap ++ [l]) tail) log) = with_props (ogg_file_read f o tags false (apply_log (ogg_data hp (ap ++ [l]) tail) log)) q).
Proof.
  intros f o tags t hp ap l tail x vb extra rest new first told p L P0 NF AF NO I CP B R.
  destruct (saved_layout f t hp (ap ++ [l]) tail _ vb extra rest new L I CP B P0) as (log & first' & np & vb' & extra' & W & A & L' & NF' & AF' & LD & NE).
  destruct (renumber_last ap l (lenN np)) as (ap' & l' & RN & AB & CO). rewrite RN in *. exists log, l', (bytes_of np ++ bytes_of ap'). split; auto.
  split; [rewrite A; unfold ogg_data; rewrite bytes_of_app; cbn [bytes_of flat_map]; rewrite !app_nil_r, <- app_assoc; reflexivity|]. split; auto. split; auto. intros NO'. rewrite A.
  destruct (read_parts f o tags _ _ _ _ _ _ _ L) as (g & G & _ & R1). assert (g = first) by congruence. subst g. apply R1 in R.
  destruct (read_parts f o tags _ _ _ _ _ _ _ L') as (g & G' & R2 & _). assert (g = first') by congruence. subst g.
  assert (OL : page_ok l). { pose proof (ol_pages _ _ _ _ _ _ _ _ L) as X. apply Forall_app in X as [_ X]. now inversion X. }
  assert (OL' : page_ok l'). { pose proof (ol_pages _ _ _ _ _ _ _ _ L') as X. apply Forall_app in X as [_ X]. now inversion X. }
  destruct (last_of_layout hp ap l tail OL NO) as (lp & F1 & E1). destruct (last_of_layout np ap' l' [] OL') as (lp' & F2 & E2). { now rewrite app_nil_r. }
  assert (LE : lenN (head_sig f ++ x) + lenN (comment_sig f ++ le_enc 4 (lenN vb') ++ vb' ++ extra') <= lenN (ogg_data np (ap' ++ [l']) [])).
  { destruct L' as [(HO & HD & HC) _ _ _ _ _ _]. unfold ogg_data. rewrite (lenN_app _ (bytes_of np)). assert (X : lenN (content_of np) <= lenN (bytes_of np)).
    { clear. induction np as [|q np IH]; cbn [content_of bytes_of flat_map]; [lia|]. rewrite !lenN_app. fold (content_of np) (bytes_of np). unfold as_bytes. rewrite !lenN_app. lia. }
    rewrite HC in X. cbn [concat] in X. rewrite !(lenN_app _ _ (concat _)) in X || rewrite !lenN_app in X. rewrite !lenN_app in *. lia. }
  destruct (props_alike f _ _ (header_page first) (header_page first') _ _ _ rest _ _ lp lp' F1 F2 ltac:(congruence) ltac:(cbn [header_page pg_abgp]; congruence) LD LE p R) as (q & Q & S). exists q. split; auto.
Qed.
Print Assumptions C248_ogg_partial.

(** ** Examples *)
Definition saved_ogg (data : bytes) (t : vc) : option bytes := match ogg_write Opus data t with Ok log => Some (apply_log data log) | _ => None end.
Definition told (data : bytes) : option ogg_props := match ogg_file_read Opus (mkVo true true Strict) true true data with Ok (_, p) => Some p | _ => None end.
Example C248_ogg_ex : exists d, saved_ogg (ogg_data ex_hp ex_ap []) ex_tag = Some d /\ told (ogg_data ex_hp ex_ap []) = Some (POpus (mkOp 1 2 3 48000 0 2000 0 0)) /\ told d = Some (POpus (mkOp 1 2 3 48000 0 2000 0 0)) /\
  d <> ogg_data ex_hp ex_ap [] /\ lenN ex_head < 255.
Proof. eexists. split; [vm_compute; reflexivity|]. split; [vm_compute; reflexivity|]. split; [vm_compute; reflexivity|]. split; [vm_compute; discriminate|reflexivity]. Qed.
(** The audio bit rate of an Opus file counts the headers of the pages of the comments: with longer comments it is higher. *)
Definition short_ap : list page := [pg 4 (312 + 48) 7 2 [1; 2; 3]].
Definition long_tag : vc := mkVc ($"abc") [($"TITLE", repeat 65 (N.to_nat 600))] [].
Theorem C248_opus_refuted : exists d p q, saved_ogg (ogg_data ex_hp short_ap []) long_tag = Some d /\ told (ogg_data ex_hp short_ap []) = Some (POpus p) /\ told d = Some (POpus q) /\
  op_duration p = 1 /\ op_duration q = 1 /\ op_audio p < op_audio q.
Proof. eexists _, _, _. split; [vm_compute; reflexivity|]. split; [vm_compute; reflexivity|]. split; [vm_compute; reflexivity|]. repeat split. Qed.
