(** Reading a whole MPEG file. *)
From Verif Require Import BaseLemmas StrLemmas Id3v2HeaderProof Id3v2HeaderThm ApeThm2 ApeProof2 TextProof.
From Verif Require Import Id3v1Model ApeModel FrameReadModel Id3v2HeaderModel.
From Verif Require Export MpegProof2.

(** ** Frames of one kind *)
Lemma land_shift : forall w m k, N.land w (N.shiftl m k) = N.shiftl (N.land (N.shiftr w k) m) k.
Proof.
  intros. apply N.bits_inj_iff. intros n. rewrite N.land_spec. destruct (N.lt_ge_cases n k) as [L|L].
  - now rewrite !N.shiftl_spec_low, andb_false_r by auto.
  - rewrite !N.shiftl_spec_high', N.land_spec, N.shiftr_spec' by auto. do 2 f_equal. lia.
Qed.
Lemma kind_bits : forall f, valid f -> N.land (word f) HEADER_MASK =
  N.lor (N.shiftl (0x7FF * 16 + version_bits (fl_version f) * 4 + layer_bits (fl_layer f)) 17) (N.shiftl (fl_rate f) 10).
Proof.
  intros f V. change HEADER_MASK with (N.lor (N.shiftl (N.ones 15) 17) (N.shiftl 3 10)). rewrite N.land_lor_distr_r, !land_shift.
  pose proof (word_fields f V) as H. cbv zeta in H. destruct H as (_ & _ & _ & -> & _). do 2 f_equal.
  destruct V as (B & R & E).
  pose proof (version_lt (fl_version f)) as H1. pose proof (layer_lt (fl_layer f)) as H2. pose proof (mode_lt (fl_mode f)) as H3.
  pose proof (emph_lt (fl_emphasis f)) as H4. pose proof (bit_lt (fl_unprotected f)) as H5. pose proof (bit_lt (fl_padded f)) as H6.
  pose proof (bit_lt (fl_private f)) as H7. pose proof (bit_lt (fl_copyright f)) as H8. pose proof (bit_lt (fl_original f)) as H9.
  eapply (field (word f) 17 15 0 _ (bit (fl_unprotected f) * 2 ^ 16 + fl_bitrate f * 2 ^ 12 + fl_rate f * 2 ^ 10 + bit (fl_padded f) * 2 ^ 9 + bit (fl_private f) * 2 ^ 8
    + mode_bits (fl_mode f) * 2 ^ 6 + fl_ext f * 2 ^ 4 + bit (fl_copyright f) * 2 ^ 3 + bit (fl_original f) * 2 ^ 2 + emph_bits (fl_emphasis f))).
  - unfold word. fold (version_bits (fl_version f)). fold (layer_bits (fl_layer f)). fold (mode_bits (fl_mode f)). fold (emph_bits (fl_emphasis f)). lia.
  - lia.
  - lia.
Qed.
Lemma kind_eq : forall f g, valid f -> valid g -> same_kind f g -> N.land (word f) HEADER_MASK = N.land (word g) HEADER_MASK.
Proof. intros f g F G (A & B & C). rewrite !kind_bits by auto. now rewrite A, B, C. Qed.
Lemma cmp_kind : forall f g, same_kind f g -> header_cmp (header_of f) (header_of g) = true.
Proof.
  intros f g (A & B & C). unfold header_cmp, header_of. cbn [m_version m_layer m_rate]. unfold rate_of. rewrite A, B, C.
  unfold version_eqb, layer_eqb. now rewrite !Nat.eqb_refl, N.eqb_refl.
Qed.
Lemma frame_len_ok : forall x, frame_ok x -> regular (fst x) -> lenN (MpegSpec.frame_bytes x) = code_length (fst x).
Proof. intros x [V L] R. unfold MpegSpec.frame_bytes. rewrite lenN_app, be_enc_len, lengths by auto. change (N.of_nat 4) with 4. lia. Qed.
Lemma word_lt : forall f, valid f -> word f < 2 ^ 32.
Proof. intros f V. pose proof (word_fields f V) as H. cbv zeta in H. tauto. Qed.
Lemma audio_cons : forall x l, audio_of (x :: l) = MpegSpec.frame_bytes x ++ audio_of l. Proof. reflexivity. Qed.

(** The first two frames make the search end there. *)
Definition sync_free (junk : bytes) : Prop := forall j, ~ sync_at (junk ++ [255]) j.
Lemma sync_free_nil : sync_free [].
Proof.
  intros j (p & q & t & DD & _). change ([] ++ [255]) with [255] in DD. destruct (N.eq_dec j 0) as [-> | J]. discriminate DD.
  replace j with (1 + (j - 1)) in DD by lia. rewrite dropN_S in DD. unfold dropN in DD. rewrite skipn_nil in DD. discriminate DD.
Qed.
Lemma search_app : forall junk f rest, bytes_ok junk -> sync_free junk -> valid f -> search_for_frame_sync (junk ++ be_enc 4 (word f) ++ rest) = Some (lenN junk).
Proof.
  intros junk f rest OK SF V. destruct (word_bytes f V) as (b & c & d & E & S & B & _). rewrite E. cbn [app].
  assert (G : forall junk prev k, bytes_ok junk -> (forall j, ~ sync_at (prev :: junk ++ [255]) j) -> sync_scan prev (junk ++ 255 :: b :: c :: d :: rest) k = Some (k + 1 + lenN junk)).
  { clear junk OK SF E. induction junk as [|x junk IH]; intros prev k OK SF; cbn [app sync_scan].
    - assert (X : verify_frame_sync prev 255 = false).
      { destruct (verify_frame_sync prev 255) eqn:X; auto. apply verify_iff in X; [|lia]. destruct X as [-> _]. exfalso. apply (SF 0). exists 255, 255, []. repeat split; lia. }
      rewrite X, S. f_equal. rewrite lenN_nil. lia.
    - apply Forall_cons_iff in OK as [OX OK]. assert (X : verify_frame_sync prev x = false).
      { destruct (verify_frame_sync prev x) eqn:X; auto. apply verify_iff in X; [|exact OX]. destruct X as [-> G]. exfalso. apply (SF 0). exists 255, x, (junk ++ [255]). repeat split; auto. }
      rewrite X, IH; auto. { f_equal. rewrite lenN_cons. lia. } intros j (p & q & t & D & H). apply (SF (1 + j)). exists p, q, t. now rewrite dropN_S. }
  destruct junk as [|x junk]; cbn [app search_for_frame_sync].
  - cbn [sync_scan]. now rewrite S.
  - apply Forall_cons_iff in OK as [OX OK]. rewrite G by auto. f_equal. rewrite lenN_cons. lia.
Qed.
Lemma find_frames : forall fuel pre junk x y rest, bytes_ok junk -> sync_free junk -> frame_ok x -> frame_ok y -> same_kind (fst y) (fst x) -> regular (fst x) ->
  find_next_frame (S fuel) (pre ++ junk ++ MpegSpec.frame_bytes x ++ MpegSpec.frame_bytes y ++ rest) (lenN pre) = Ok (Some (header_of (fst x), lenN (pre ++ junk))).
Proof.
  intros fuel pre junk x y rest OJ SF OX OY K RG. set (data := pre ++ _). cbn [find_next_frame].
  pose proof (frame_len_ok x OX RG) as LX.
  assert (D0 : dropN (lenN pre) data = junk ++ be_enc 4 (word (fst x)) ++ snd x ++ MpegSpec.frame_bytes y ++ rest).
  { unfold data. rewrite dropN_app by auto. unfold MpegSpec.frame_bytes at 1. now rewrite <- !app_assoc. }
  rewrite D0, search_app by (auto; apply OX).
  assert (D1 : dropN (lenN pre + lenN junk) data = be_enc 4 (word (fst x)) ++ snd x ++ MpegSpec.frame_bytes y ++ rest).
  { rewrite <- dropN_dropN, D0. now apply dropN_app. }
  rewrite D1. rewrite (read_be_app 4 4) by (try reflexivity; apply word_lt, OX).
  rewrite decode by apply OX. unfold cmp_header. cbn [m_len header_of].
  pose proof (lengths_mod (fst x) (proj1 OX)) as (LM & _).
  replace (lenN pre + lenN junk + 4 + (code_length (fst x) - 4)) with (lenN pre + lenN junk + code_length (fst x)) by lia.
  assert (D2 : dropN (lenN pre + lenN junk + code_length (fst x)) data = be_enc 4 (word (fst y)) ++ snd y ++ rest).
  { rewrite <- dropN_dropN, D1. rewrite <- LX. rewrite !app_assoc. rewrite <- (app_assoc _ _ rest).
    change (be_enc 4 (word (fst x)) ++ snd x) with (MpegSpec.frame_bytes x). rewrite <- app_assoc, dropN_app by reflexivity. unfold MpegSpec.frame_bytes. now rewrite <- app_assoc. }
  rewrite D2. rewrite (read_be_app 4 4) by (try reflexivity; apply word_lt, OY).
  rewrite (kind_eq (fst y) (fst x)), N.eqb_refl by (auto; first [apply OX|apply OY]). now rewrite lenN_app.
Qed.

(** ** Tags in front *)
Record vtag := mkVT { tg_major : N; tg_minor : N; tg_flags : N; tg_size : N; tg_content : bytes; tg_parsed : id3v2_tag }.
Definition vtag_bytes (t : vtag) : bytes := hdr_bytes (tg_major t) (tg_minor t) (tg_flags t) (tg_size t) ++ tg_content t.
Definition tg_version (t : vtag) : id3v2_version := if tg_major t =? 2 then V2 else if tg_major t =? 3 then V3 else V4.
Definition tg_footer (t : vtag) : bool := negb (tg_major t =? 2) && flag (tg_flags t) 0x10.
Definition tg_header (t : vtag) : id3v2_header :=
  mkHdr (tg_version t) (mkTFlags (flag (tg_flags t) 0x80) (negb (tg_major t =? 2) && flag (tg_flags t) 0x20) (tg_footer t) false None) (unsynch32 (tg_size t)) 0.
Definition vtag_ok (inflate : bytes -> option bytes) (o : fopts) (t : vtag) : Prop :=
  (tg_major t = 2 \/ tg_major t = 3 \/ tg_major t = 4) /\ tg_size t < 2 ^ 32 /\ flag (tg_flags t) 0x40 = false /\ lenN (tg_content t) = unsynch32 (tg_size t) /\
  parse_id3v2 inflate (tg_header t) o (tg_content t) = Ok (tg_parsed t, []).
Lemma vtag_len : forall t, lenN (vtag_bytes t) = 10 + lenN (tg_content t).
Proof. intros. unfold vtag_bytes, hdr_bytes. rewrite !lenN_app, be_enc_len. reflexivity. Qed.
Lemma vtag_parse : forall inflate o t rest, vtag_ok inflate o t -> header_parse (vtag_bytes t ++ rest) = (Ok (tg_header t), tg_content t ++ rest) /\
  parse_id3v2 inflate (tg_header t) o (tg_content t ++ rest) = Ok (tg_parsed t, rest).
Proof.
  intros inflate o t rest (M & N & F & L & P). split.
  - unfold vtag_bytes. rewrite <- app_assoc, parse_hdr by auto. unfold tg_header, tg_version, tg_footer.
    destruct M as [M|[M|M]]; rewrite M; [change (2 =? 2) with true|change (3 =? 2) with false; change (3 =? 3) with true|change (4 =? 2) with false; change (4 =? 3) with false; change (4 =? 4) with true];
      cbv iota; cbn [is_v2 negb andb]; rewrite F; reflexivity.
  - revert P. unfold parse_id3v2. cbn [h_size h_ext_size tg_header]. rewrite N.sub_0_r. rewrite takeN_all by lia. rewrite dropN_all by lia. rewrite takeN_app, dropN_app by auto.
    cbv zeta. destruct (read_all _ _ _ _ _ _ _) as [[l r]| |]; cbn [bind]; intros H; try discriminate. injection H as H. rewrite <- H. reflexivity.
Qed.
Lemma lead_tag : forall inflate fuel pre t rest o v2 ape, vtag_ok inflate (mo_frames o) t ->
  lead inflate (S fuel) (pre ++ vtag_bytes t ++ rest) o v2 ape (lenN pre) =
  lead inflate fuel (pre ++ vtag_bytes t ++ rest) o
    (if mo_tags o then Some (match v2 with Some old => add_frames old (tg_parsed t) | None => tg_parsed t end) else v2) ape
    (lenN (pre ++ vtag_bytes t) + if mo_tags o && negb (match v2 with None => true | _ => false end) then 0 else if tg_footer t then 10 else 0).
Proof.
  intros inflate fuel pre t rest o v2 ape OK. destruct (vtag_parse inflate (mo_frames o) t rest OK) as [P1 P2].
  set (data := pre ++ vtag_bytes t ++ rest). cbn [lead].
  assert (D : dropN (lenN pre) data = vtag_bytes t ++ rest) by (unfold data; now apply dropN_app). rewrite D.
  assert (R4 : exists b r, read_exact 4 (vtag_bytes t ++ rest) = Some (b, r) /\ takeN 3 b = $"ID3").
  { unfold vtag_bytes, hdr_bytes, read_exact. rewrite <- !app_assoc. match goal with |- context [4 <=? ?n] => replace (4 <=? n) with true end.
    2:{ symmetry. apply N.leb_le. rewrite !lenN_app. change (lenN $"ID3") with 3. change (lenN [tg_major t; tg_minor t; tg_flags t]) with 3. lia. }
    eexists _, _. split. reflexivity. reflexivity. }
  destruct R4 as (b & r & -> & ->). change (list_eqb ($"ID3") ($"ID3")) with true. cbv iota. rewrite P1. cbn [tag_res bind].
  assert (LD : lenN data = lenN (pre ++ vtag_bytes t) + lenN rest) by (unfold data; rewrite !lenN_app; lia).
  assert (LV : lenN (pre ++ vtag_bytes t) = lenN pre + 10 + lenN (tg_content t)) by (rewrite lenN_app, vtag_len; lia).
  change (tf_footer (h_flags (tg_header t))) with (tg_footer t). destruct (mo_tags o).
  - rewrite P2. cbn [tag_res bind]. replace (lenN data - lenN rest) with (lenN (pre ++ vtag_bytes t)) by lia. destruct v2; cbn [andb negb]; [now rewrite N.add_0_r|reflexivity].
  - cbn [andb]. f_equal. rewrite lenN_app. change (h_size (tg_header t)) with (unsynch32 (tg_size t)). destruct OK as (_ & _ & _ & L & _). destruct (tg_footer t); lia.
Qed.
(** The first tag may have a footer, the others not. *)
Definition front_of (foot : bytes) (ts : list vtag) : bytes :=
  match ts with [] => [] | t :: ts => vtag_bytes t ++ foot ++ flat_map vtag_bytes ts end.
Definition foot_ok (foot : bytes) (ts : list vtag) : Prop :=
  match ts with [] => foot = [] | t :: ts => lenN foot = (if tg_footer t then 10 else 0) /\ Forall (fun t => tg_footer t = false) ts end.
Definition merged (ts : list vtag) : option id3v2_tag :=
  match ts with [] => None | t :: ts => Some (fold_left (fun a t => add_frames a (tg_parsed t)) ts (tg_parsed t)) end.
Lemma lead_more : forall inflate o ts fuel pre rest v2 ape, Forall (vtag_ok inflate (mo_frames o)) ts -> Forall (fun t => tg_footer t = false) ts ->
  lead inflate (length ts + fuel) (pre ++ flat_map vtag_bytes ts ++ rest) o (Some v2) ape (lenN pre) =
  lead inflate fuel (pre ++ flat_map vtag_bytes ts ++ rest) o (if mo_tags o then Some (fold_left (fun a t => add_frames a (tg_parsed t)) ts v2) else Some v2) ape (lenN (pre ++ flat_map vtag_bytes ts)).
Proof.
  induction ts as [|t ts IH]; intros fuel pre rest v2 ape F G.
  - cbn [length Nat.add flat_map fold_left]. rewrite app_nil_r. now destruct (mo_tags o).
  - apply Forall_cons_iff in F as [F1 F]. apply Forall_cons_iff in G as [G1 G]. cbn [length Nat.add flat_map]. rewrite <- app_assoc.
    rewrite lead_tag by auto. rewrite G1. replace (if mo_tags o && _ then 0 else 0) with 0 by now destruct (mo_tags o && _). rewrite N.add_0_r.
    rewrite !app_assoc. rewrite <- (app_assoc _ _ rest). destruct (mo_tags o) eqn:T.
    + rewrite IH by auto. cbn [fold_left]. reflexivity.
    + rewrite IH by auto. reflexivity.
Qed.
Lemma lead_more_none : forall inflate o ts fuel pre rest ape, mo_tags o = false -> Forall (vtag_ok inflate (mo_frames o)) ts -> Forall (fun t => tg_footer t = false) ts ->
  lead inflate (length ts + fuel) (pre ++ flat_map vtag_bytes ts ++ rest) o None ape (lenN pre) =
  lead inflate fuel (pre ++ flat_map vtag_bytes ts ++ rest) o None ape (lenN (pre ++ flat_map vtag_bytes ts)).
Proof.
  induction ts as [|t ts IH]; intros fuel pre rest ape T F G.
  - cbn [length Nat.add flat_map]. now rewrite app_nil_r.
  - apply Forall_cons_iff in F as [F1 F]. apply Forall_cons_iff in G as [G1 G]. cbn [length Nat.add flat_map]. rewrite <- app_assoc.
    rewrite lead_tag by auto. rewrite T, G1. cbn [andb]. rewrite N.add_0_r. rewrite !app_assoc. rewrite <- (app_assoc _ _ rest). now rewrite IH.
Qed.
Lemma lead_front : forall inflate o foot ts fuel pre rest ape, Forall (vtag_ok inflate (mo_frames o)) ts -> foot_ok foot ts ->
  lead inflate (length ts + fuel) (pre ++ front_of foot ts ++ rest) o None ape (lenN pre) =
  lead inflate fuel (pre ++ front_of foot ts ++ rest) o (if mo_tags o then merged ts else None) ape (lenN (pre ++ front_of foot ts)).
Proof.
  intros inflate o foot [|t ts] fuel pre rest ape F FO.
  - cbn [length Nat.add front_of merged]. rewrite app_nil_r. now destruct (mo_tags o).
  - apply Forall_cons_iff in F as [F1 F]. destruct FO as [FL G]. cbn [length Nat.add front_of merged]. rewrite <- !app_assoc.
    rewrite lead_tag by auto. rewrite andb_false_r.
    replace (lenN (pre ++ vtag_bytes t) + (if tg_footer t then 10 else 0)) with (lenN (pre ++ vtag_bytes t ++ foot)) by (rewrite !lenN_app; lia).
    replace (pre ++ vtag_bytes t ++ foot ++ flat_map vtag_bytes ts ++ rest) with ((pre ++ vtag_bytes t ++ foot) ++ flat_map vtag_bytes ts ++ rest) by now rewrite <- !app_assoc.
    replace (pre ++ vtag_bytes t ++ foot ++ flat_map vtag_bytes ts) with ((pre ++ vtag_bytes t ++ foot) ++ flat_map vtag_bytes ts) by now rewrite <- !app_assoc.
    destruct (mo_tags o) eqn:T; [rewrite lead_more by auto; now rewrite T|now rewrite lead_more_none].
Qed.
(** The search in the junk before the first frame. *)
Lemma ext_left : forall r f h, lenN (snd (read_extended_header r f h)) <= lenN r.
Proof.
  intros. unfold read_extended_header. destruct (h <? 6); [cbn [snd]; lia|].
  destruct r as [|a [|e r]]; cbn [read_u8 snd]; rewrite ?lenN_cons, ?lenN_nil; try lia.
  destruct (flag e 0x20).
  - destruct (read_exact 6 r) as [[q r1]|] eqn:E; cbn [snd]; rewrite ?lenN_nil; try lia. apply read_exact_spec in E as [E _]. subst r. rewrite lenN_app.
    destruct (flag e 0x10); [|cbn [snd]; lia]. destruct r1 as [|a1 [|a2 r1]]; cbn [read_u8 snd]; rewrite ?lenN_cons, ?lenN_nil; lia.
  - destruct (flag e 0x10); [|cbn [snd]; lia]. destruct r as [|a1 [|a2 r]]; cbn [read_u8 snd]; rewrite ?lenN_cons, ?lenN_nil; lia.
Qed.
Lemma header_ext_left : forall v f p r, lenN (snd (header_ext v f p r)) <= lenN r.
Proof.
  intros. unfold header_ext. destruct p; [|cbn [snd]; lia].
  assert (BE : forall n u r', read_be 4 r = Some (n, r') -> lenN (snd (read_extended_header r' f u)) <= lenN r).
  { intros n u r' E. unfold read_be in E. destruct (read_exact 4 r) as [[b t]|] eqn:R; [|discriminate]. apply read_exact_spec in R as [R _]. injection E as _ <-. pose proof (ext_left t f u). rewrite R, lenN_app. lia. }
  destruct v; [| |].
  1-2: destruct (tf_unsync f).
  1,3: destruct (read_be 4 (resynchronise r)) as [[e u]|]; cbn [snd]; [destruct (read_extended_header u f e) as [[?| |] ?]; cbn [snd]|]; rewrite lenN_dropN; lia.
  all: destruct (read_be 4 r) as [[e u]|] eqn:E; cbn [snd]; rewrite ?lenN_nil; try lia.
  1-2: specialize (BE _ e _ eq_refl); destruct (read_extended_header u f e) as [[?| |] ?]; cbn [snd] in *; auto.
  specialize (BE _ (unsynch32 e) _ eq_refl); destruct (read_extended_header u f (unsynch32 e)) as [[?| |] ?]; cbn [snd] in *; auto.
Qed.
Lemma header_left : forall r, let (h, rest) := header_parse r in (rest = [] \/ lenN rest + 10 <= lenN r) /\ (forall x, h = Ok x -> lenN rest + 10 <= lenN r).
Proof.
  intros. unfold header_parse. destruct (read_exact 10 r) as [[h r1]|] eqn:E; [|split; [auto|discriminate]]. apply read_exact_spec in E as [E L]. subst r. rewrite lenN_app, L.
  destruct (negb _); [split; [right; lia|discriminate]|]. destruct (if _ =? 2 then _ else _) as [v|]; [|split; [right; lia|discriminate]].
  destruct (is_v2 v && _); [split; [right; lia|discriminate]|]. cbv zeta.
  match goal with |- context [header_ext ?v ?f ?p ?r] => pose proof (header_ext_left v f p r) as X; destruct (header_ext v f p r) as [[[e f']| |] r2] end; cbn [snd] in X.
  - destruct (_ && _); split; try (right; lia); intros; try discriminate; lia.
  - split; [right; lia|discriminate].
  - split; [right; lia|discriminate].
Qed.
Lemma find_quiet : forall data w, 10 <= lenN data -> exists h p, find_id3v2 data 0 false (Some w) = Ok (h, None, p).
Proof.
  intros data w L. unfold find_id3v2. rewrite dropN_0. pose proof (C54_junk_search (takeN w data)) as J.
  destruct (find_id3v2_in_junk (takeN w data)) as [[[off rest]|]| |]; cbn [bind]; try contradiction; [|eauto].
  set (pos := 0 + lenN (takeN w data) - lenN rest - 3). pose proof (header_left (dropN pos data)) as HL. pose proof (header_total (dropN pos data)) as HT.
  destruct (header_parse (dropN pos data)) as [[h|e|] r]; cbn [fst] in HT; [eauto| |contradiction].
  rewrite lenN_dropN in HL. destruct HL as [HL _]. unfold seek_back.
  assert (10 <= N.max pos (lenN data - lenN r)). { destruct HL as [->|HL]; rewrite ?lenN_nil; lia. }
  destruct (N.ltb_spec (N.max pos (lenN data - lenN r)) 10); [lia|eauto].
Qed.
Definition no_id3 (pre : bytes) : Prop := forall p q, pre <> p ++ $"ID3" ++ q.
Lemma find_nothing : forall pre rest w read, no_id3 pre -> w <= lenN pre -> find_id3v2 (pre ++ rest) 0 read (Some w) = Ok (None, None, 0).
Proof.
  intros pre rest w read NI W. unfold find_id3v2. rewrite dropN_0, takeN_app_le by auto. pose proof (C54_junk_search (takeN w pre)) as J.
  destruct (find_id3v2_in_junk (takeN w pre)) as [[[off r]|]| |]; cbn [bind]; try contradiction; [|reflexivity].
  destruct J as (p & J & _). exfalso. apply (NI p (r ++ dropN w pre)). rewrite <- (takeN_dropN _ w pre) at 1. rewrite J. now rewrite <- !app_assoc.
Qed.
(** The frames after the tags. *)
Lemma lead_frames : forall inflate o fuel pre x y rest v2 ape, (v2 = None -> no_id3 pre \/ mo_strict o = true \/ mo_tags o = false) -> frame_ok x -> frame_ok y -> same_kind (fst y) (fst x) -> regular (fst x) ->
  lead inflate (S fuel) (pre ++ MpegSpec.frame_bytes x ++ MpegSpec.frame_bytes y ++ rest) o v2 ape (lenN pre) = Ok (v2, ape, Some (header_of (fst x), lenN pre)).
Proof.
  intros inflate o fuel pre x y rest v2 ape NP OX OY K RG. set (data := pre ++ _). cbn [lead].
  assert (D : dropN (lenN pre) data = be_enc 4 (word (fst x)) ++ snd x ++ MpegSpec.frame_bytes y ++ rest).
  { unfold data. rewrite dropN_app by auto. unfold MpegSpec.frame_bytes at 1. now rewrite <- !app_assoc. }
  rewrite D, read_exact_app by reflexivity.
  destruct (word_bytes (fst x) (proj1 OX)) as (b & c & d & E & _). rewrite E.
  change (list_eqb (takeN 3 [255; b; c; d]) ($"ID3")) with false. change (list_eqb [255; b; c; d] ($"APET")) with false. cbv iota.
  pose proof (find_frames (length data) pre [] x y rest (Forall_nil _)) as FF. cbn [app] in FF. rewrite app_nil_r in FF. fold data in FF.
  rewrite FF by (first [apply sync_free_nil|assumption]).
  cbn [bind]. destruct v2 as [t|]; [reflexivity|]. destruct (negb (mo_strict o) && (0 <? lenN pre)) eqn:C; [|reflexivity]. apply andb_true_iff in C as [C1 C2].
  destruct (NP eq_refl) as [NI|[S|T]].
  - unfold data. rewrite find_nothing by (auto; lia). reflexivity.
  - rewrite S in C1. discriminate.
  - rewrite T. destruct (find_quiet data (N.min (lenN pre) (mo_junk o))) as (h & p & ->).
    { pose proof (frame_len_ok x OX RG) as LX. pose proof (lengths_mod (fst x) (proj1 OX)). unfold data. rewrite !lenN_app. lia. }
    cbn [tag_res bind]. now destruct h.
Qed.

(** ** Tags at the end *)
Definition v1_of (o : mopts) (v1 : bytes) (t : option id3v1) : Prop :=
  match t with Some t => mo_tags o = true /\ lenN v1 = 128 /\ v1_parse v1 (mo_strict o) = Ok t | None => v1 = [] \/ mo_tags o = false end.
Lemma tail_spec : forall o body ape v1 v1t ape0, file_end (body ++ ape ++ v1) v1 -> old_tag body ape -> (ape <> [] -> mo_tags o = true) -> 32 <= lenN (body ++ ape) -> v1_of o v1 v1t ->
  exists at', tail (body ++ ape ++ v1) o ape0 = Ok (v1t, at', lenN body) /\ (ape = [] -> at' = ape0) /\
    (forall t, at_items t <> [] -> Forall item_ok (at_items t) -> NoDup (map (fun i => lower (ai_key i)) (at_items t)) -> ape_dump t = Ok ape ->
       at' = Some (mkApeTag false (filter (shown (fo_cover (mo_frames o))) (at_items t)))).
Proof.
  intros o body ape v1 v1t ape0 FE OT TG L32 V1. set (data := body ++ ape ++ v1) in *.
  assert (LD : lenN data = lenN (body ++ ape) + lenN v1) by (unfold data; rewrite !lenN_app; lia).
  destruct (find_end (body ++ ape) v1) as (fd & F1). { rewrite <- app_assoc. exact FE. }
  rewrite <- app_assoc in F1. fold data in F1. unfold tail. rewrite F1.
  assert (V : (if fd && mo_tags o then let? t := tag_res (v1_parse (dropN (lenN (body ++ ape)) data) (mo_strict o)) in Ok (Some t) else Ok None) = Ok v1t).
  { assert (DV : dropN (lenN (body ++ ape)) data = v1) by (unfold data; rewrite app_assoc; now apply dropN_app). rewrite DV.
    destruct v1t as [t|]; cbn [v1_of] in V1.
    - destruct V1 as (T & L & P). rewrite T, P. assert (fd = true) as ->. 2: reflexivity.
      unfold find_id3v1 in F1. rewrite LD, L in F1. destruct (N.ltb_spec (lenN (body ++ ape) + 128) 128); [lia|]. destruct (list_eqb _ TAG); [congruence|]. injection F1 as F1 _. lia.
    - destruct V1 as [->|T]; [|now rewrite T, andb_false_r]. destruct fd; [|reflexivity]. exfalso. unfold find_id3v1 in F1. rewrite LD, lenN_nil, N.add_0_r in F1.
      destruct (N.ltb_spec (lenN (body ++ ape)) 128); [discriminate|]. destruct (list_eqb _ TAG); [|discriminate]. injection F1 as F1. lia. }
  rewrite V. cbn [bind].
  pose proof (C35_never_recognised data (lenN (body ++ ape)) ltac:(lia)) as LY.
  destruct (find_lyrics3v2 data (lenN (body ++ ape))) as [[[lf ls] pos]| |]; [|lia|contradiction]. destruct LY as (_ & _ & ->). cbn [tag_res bind].
  unfold seek_back. destruct (N.ltb_spec (lenN (body ++ ape)) 32); [lia|].
  destruct OT as [[EA NT]|(Lo & t & IO & ND & Ne & D)].
  - rewrite EA in *. rewrite app_nil_r in *.
    assert (R3 : exists r, read_ape_tag data true (fo_cover (mo_frames o)) (mo_tags o) (rd_at data (lenN body - 32)) = Ok (None, None, r) /\ fst r = lenN body - 24).
    { unfold read_ape_tag, rd_exact, rd_at. cbn [fst snd]. unfold read_exact. rewrite lenN_dropN. destruct (N.leb_spec 8 (lenN data - (lenN body - 32))); [|lia]. cbn [or_io bind].
      destruct (list_eqb _ PREAMBLE) eqn:E; [|eexists; split; [reflexivity|cbn [fst]; lia]]. apply list_eqb_eq in E. destruct NT. unfold data in E. rewrite dropN_app_le in E by lia. rewrite takeN_app_le in E by (rewrite lenN_dropN; lia). exact E. }
    destruct R3 as (r3 & -> & R3). cbn [tag_res bind]. rewrite R3. exists ape0. split. { do 3 f_equal. lia. } split; [auto|].
    intros t Ne _ _ D. unfold ape_dump, create_ape_tag in D. destruct (at_items t); [contradiction|]. destruct (U32_MAX <? _); [discriminate|]. destruct (U32_MAX <? _); [discriminate|]. discriminate D.
  - destruct (read_back t ape body v1 (fo_cover (mo_frames o)) IO ND Ne D) as [_ RB]. cbv zeta in RB. fold data in RB.
    assert (NE : ape <> []). { intros ->. unfold ape_dump, create_ape_tag in D. destruct (at_items t); [contradiction|]. destruct (U32_MAX <? _); [discriminate|]. destruct (U32_MAX <? _); [discriminate|]. discriminate D. }
    rewrite (TG NE), RB. cbn [tag_res bind]. replace (N.min U32_MAX (lenN ape)) with (lenN ape) by (unfold U32_MAX; lia). unfold rd_at. cbn [fst].
    destruct (N.ltb_spec (lenN (body ++ ape)) (lenN ape)). { rewrite lenN_app in *. lia. }
    eexists. split. { do 3 f_equal. rewrite lenN_app. lia. } split; [intros; contradiction|].
    intros t' Ne' IO' ND' D'. destruct (read_back t' ape body v1 (fo_cover (mo_frames o)) IO' ND' Ne' D') as [_ RB']. cbv zeta in RB'. fold data in RB'. rewrite RB in RB'. congruence.
Qed.
