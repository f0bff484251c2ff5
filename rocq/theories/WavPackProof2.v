(** The loop over WavPack blocks, and its result. *)
From Verif Require Import BaseLemmas StrLemmas F64Proof ApeModel ApeThm2 ApeThm Id3v1Model Id3v1Thm Id3v2HeaderModel Id3v2HeaderThm FrameReadModel AiffModel MpegModel MpegProof3 MpegProof5 TailProof.
From Verif Require Export WavPackProof.
From Verif Require Import Base Str.

Definition speakers (k : wblock) : N := if g_mono (k_flags k) then 4 else 3.
Definition depth_of (k : wblock) : N := g_bytes (k_flags k) * 8 - g_shift (k_flags k).
(** What a block does to the properties *)
Definition block_effect (k : wblock) (rate : N) (p : wv_props) : wv_props :=
  let p := with_rate p rate in
  if g_first (k_flags k) then
    let p := with_format p (k_version k) (depth_of k) (negb (g_hybrid (k_flags k))) in
    if g_last (k_flags k) then with_channels p (block_channels k) (speakers k) else p
  else p.
Definition block_total (k : wblock) (t : N) : N := if g_first (k_flags k) then total_word k else t.
Definition stops (k : wblock) : bool := negb ((k_samples k =? 0) || negb (g_last (k_flags k))).
Lemma rates_nth : forall i, i < 15 -> nth (N.to_nat i) WV_RATES 0 = std_rate i.
Proof.
  intros i I. unfold std_rate. change WV_RATES with ([6000; 8000; 9600; 11025; 12000; 16000; 22050; 24000; 32000; 44100; 48000; 64000; 88200; 96000; 192000] ++ [0]).
  rewrite app_nth1; [reflexivity|]. cbn [length]. lia.
Qed.
Lemma rate_lt : forall i, std_rate i < 2 ^ 32.
Proof. intros i. unfold std_rate. generalize (N.to_nat i). intros n. do 15 (destruct n as [|n]; [reflexivity|]). destruct n; reflexivity. Qed.
Lemma effect_eq : forall k rate p, block_ok k -> let flags := flag_word (k_flags k) in
  (let initial := N.testbit flags 11 in let final := N.testbit flags 12 in
   let p := with_rate p rate in
   let p := if initial then with_format p (k_version k) ((N.land flags 3 + 1) * 8 - N.land (N.shiftr flags 13) 31) (negb (N.testbit flags 3)) else p in
   if initial && final then (if N.testbit flags 2 then with_channels p 1 4 else with_channels p 2 3) else p) = block_effect k rate p.
Proof.
  intros k rate p (_ & _ & _ & _ & G & _) flags. destruct (flag_fields _ G) as (A & B & C & D & E & F & _). fold flags in A, B, C, D, E, F. cbv zeta. rewrite A, B, C, D, E, F. unfold block_effect, depth_of, block_channels, speakers.
  destruct G as (GB & _). replace (g_bytes (k_flags k) - 1 + 1) with (g_bytes (k_flags k)) by lia. destruct (g_first (k_flags k)); cbn [andb]; [|reflexivity]. destruct (g_last (k_flags k)), (g_mono (k_flags k)); reflexivity.
Qed.
Definition go_of (fuel : nat) (strict : bool) (data : bytes) (off : N) (h : wv_header) (total : N) (p : wv_props) : res wv_error (wv_props * N) :=
  let flags := wh_flags h in
  let initial := N.testbit flags 11 in
  let final := N.testbit flags 12 in
  if initial && ((wh_version h <? 0x402) || (0x410 <? wh_version h)) then (if strict then Err WVersion else Ok (p, total)) else
  let total := if initial then wh_total h else total in
  let p := if initial then with_format p (wh_version h) ((N.land flags 3 + 1) * 8 - N.land (N.shiftr flags 13) 31) (negb (N.testbit flags 3)) else p in
  let p := if initial && final then (if N.testbit flags 2 then with_channels p 1 4 else with_channels p 2 3) else p in
  if (wh_samples h =? 0) || negb final then wv_blocks fuel strict data (off + wh_size h + 8) p total else Ok (p, total).
Lemma blocks_eq : forall fuel strict data off p total, wv_blocks (S fuel) strict data off p total =
  match wv_header_read data off with
  | Panic => Panic
  | Err e => if strict then Err e else Ok (p, total)
  | Ok h =>
      let index := N.land (N.shiftr (wh_flags h) 23) 15 in
      let p := with_rate p (nth (N.to_nat index) WV_RATES 0) in
      if (index =? 15) || N.testbit (wh_flags h) 31 then
        match read_exact (wh_size h - 24) (dropN (off + 32) data) with
        | None => Err WIo
        | Some (block, _) =>
            match wv_meta (S (length block)) strict block p with
            | (p, Some e) => if strict then Err e else Ok (p, total)
            | (p, None) => if (index =? 15) && (wp_rate p =? 0) then (if strict then Err WRate else Ok (p, total)) else go_of fuel strict data off h total p
            end
        end
      else go_of fuel strict data off h total p
  end.
Proof. reflexivity. Qed.
Lemma block_step : forall fuel strict pre k rest p t rate, block_ok k -> rate_is k rate -> rate < 2 ^ 32 ->
  wv_blocks (S fuel) strict (pre ++ block_bytes k ++ rest) (lenN pre) p t =
  if stops k then Ok (block_effect k rate p, block_total k t) else wv_blocks fuel strict (pre ++ block_bytes k ++ rest) (lenN (pre ++ block_bytes k)) (block_effect k rate p) (block_total k t).
Proof.
  intros fuel strict pre k rest p t rate OK R RL. assert (OK' := OK). destruct OK' as (V & _ & _ & _ & G & _). destruct (flag_fields _ G) as (_ & _ & _ & F1 & F2 & _ & FR & FD & _).
  rewrite blocks_eq, header_ok by auto. cbv zeta. change (wh_flags (header_of_block k)) with (flag_word (k_flags k)). change (wh_size (header_of_block k)) with (24 + lenN (k_body k)). rewrite FR, FD.
  rewrite body_ok.
  set (go := go_of fuel strict (pre ++ block_bytes k ++ rest) (lenN pre) (header_of_block k) t).
  assert (GO : go (with_rate p rate) = if stops k then Ok (block_effect k rate p, block_total k t) else wv_blocks fuel strict (pre ++ block_bytes k ++ rest) (lenN (pre ++ block_bytes k)) (block_effect k rate p) (block_total k t)).
  { unfold go, go_of, header_of_block. cbn [wh_flags wh_version wh_size wh_total wh_samples]. cbv zeta. destruct (N.ltb_spec (k_version k) 1026); [lia|]. destruct (N.ltb_spec 1040 (k_version k)); [lia|]. cbn [orb]. rewrite andb_false_r. pose proof (effect_eq k rate p OK) as EE. cbv zeta in EE. rewrite EE. rewrite F1, F2. unfold stops. fold (block_total k t).
    rewrite lenN_app, block_len. replace (lenN pre + (32 + lenN (k_body k))) with (lenN pre + (24 + lenN (k_body k)) + 8) by lia. destruct ((k_samples k =? 0) || negb (g_last (k_flags k))); reflexivity. }
  rewrite <- GO. clear GO. clearbody go.
  inversion R as [L D E|m L D C M E|r L D C NZ E|r m L D C NZ M E].
  - rewrite D. destruct (N.eqb_spec (g_rate (k_flags k)) 15); [lia|]. cbn [orb]. now rewrite rates_nth.
  - rewrite D, orb_true_r. destruct (N.eqb_spec (g_rate (k_flags k)) 15); [lia|]. unfold k_body. erewrite meta_rates; [|exact C|exact M|lia]. cbn [andb apply_rate]. rewrite rates_nth by auto. cbn [wp_rate with_rate]. rewrite N.mod_small by lia. reflexivity.
  - rewrite L. change (15 =? 15) with true. cbn [orb]. unfold k_body. erewrite meta_rates; [|exact C|exact I|lia]. cbn [andb apply_rate wp_rate with_rate]. destruct (N.eqb_spec rate 0) as [Z|_]; [congruence|]. reflexivity.
  - rewrite L. change (15 =? 15) with true. cbn [orb]. unfold k_body. erewrite meta_rates; [|exact C|exact M|lia]. cbn [andb apply_rate wp_rate with_rate]. rewrite N.mod_small by lia.
    destruct (N.eqb_spec (r * 2 ^ m) 0) as [Z|_]; [|reflexivity]. apply N.eq_mul_0 in Z as [Z|Z]; [contradiction|]. now apply N.pow_nonzero in Z.
Qed.

(** Blocks with their rates, none of which ends the search *)
Definition going (kr : wblock * N) : Prop := block_ok (fst kr) /\ rate_is (fst kr) (snd kr) /\ snd kr < 2 ^ 32 /\ stops (fst kr) = false.
Definition all_bytes (l : list (wblock * N)) : bytes := flat_map (fun kr => block_bytes (fst kr)) l.
Definition effects (l : list (wblock * N)) (p : wv_props) : wv_props := fold_left (fun p kr => block_effect (fst kr) (snd kr) p) l p.
Definition totals (l : list (wblock * N)) (t : N) : N := fold_left (fun t kr => block_total (fst kr) t) l t.
Lemma run : forall l fuel strict pre rest p t, Forall going l ->
  wv_blocks (length l + fuel) strict (pre ++ all_bytes l ++ rest) (lenN pre) p t = wv_blocks fuel strict (pre ++ all_bytes l ++ rest) (lenN (pre ++ all_bytes l)) (effects l p) (totals l t).
Proof.
  induction l as [|[k r] l IH]; intros fuel strict pre rest p t F. { cbn [all_bytes flat_map length Nat.add effects totals fold_left]. now rewrite app_nil_r. }
  apply Forall_cons_iff in F as [(A & B & C & D) F]. cbn [fst snd] in *. cbn [length Nat.add effects totals fold_left fst snd]. change (all_bytes ((k, r) :: l)) with (block_bytes k ++ all_bytes l). rewrite <- app_assoc.
  rewrite (block_step _ _ _ _ _ _ _ r) by auto. rewrite D. rewrite (app_assoc pre), IH by auto. rewrite <- !app_assoc. reflexivity.
Qed.
Lemma bytes_len : forall l, (length l <= length (all_bytes l))%nat.
Proof.
  induction l as [|[k r] l IH]; [cbn; lia|]. change (all_bytes ((k, r) :: l)) with (block_bytes k ++ all_bytes l). rewrite app_length. assert (32 <= lenN (block_bytes k)) by (rewrite block_len; lia). unfold lenN in *. cbn [length]. lia.
Qed.
Lemma found : forall l k rate strict rest p t, Forall going l -> block_ok k -> rate_is k rate -> rate < 2 ^ 32 -> stops k = true ->
  wv_blocks (S (length (all_bytes l ++ block_bytes k ++ rest))) strict (all_bytes l ++ block_bytes k ++ rest) 0 p t = Ok (block_effect k rate (effects l p), block_total k (totals l t)).
Proof.
  intros l k rate strict rest p t F OK R RL ST. pose proof (bytes_len l) as BL. rewrite !app_length.
  replace (S (length (all_bytes l) + (length (block_bytes k) + length rest)))%nat with (length l + S (length (all_bytes l) - length l + (length (block_bytes k) + length rest)))%nat by lia.
  pose proof (run l (S (length (all_bytes l) - length l + (length (block_bytes k) + length rest))) strict [] (block_bytes k ++ rest) p t F) as RN. cbn [app] in RN. change (lenN []) with 0 in RN. rewrite RN.
  rewrite (block_step _ _ _ _ _ _ _ rate) by auto. now rewrite ST.
Qed.

(** ** The whole file *)
Lemma read_shape : forall o body ape v1 v1t, file_end (body ++ ape ++ v1) v1 -> old_tag body ape -> 32 <= lenN (body ++ ape) -> v1_of o v1 v1t ->
  exists t, ape_of o ape t /\ wv_read o (body ++ ape ++ v1) =
    if mo_props o then let? p := wv_properties (mo_strict o) (body ++ ape ++ v1) (lenN body) in Ok (mkWF v1t t p) else Ok (mkWF v1t t wv_default).
Proof.
  intros o body ape v1 v1t FE OT L32 V1. destruct (tail_pieces o body ape v1 v1t FE OT L32 V1) as (fd & t & h & r & A & B & C & D & E & F & G). exists t. split; [exact G|].
  set (data := body ++ ape ++ v1) in *. assert (LD : lenN data = lenN body + lenN ape + lenN v1) by (unfold data; rewrite !lenN_app; lia).
  unfold wv_read. rewrite A.
  assert (V : (if fd && mo_tags o then let? t0 := wv_tag (v1_parse (dropN (lenN (body ++ ape)) data) (mo_strict o)) in Ok (Some t0) else Ok None) = @Ok wv_error _ v1t).
  { destruct (fd && mo_tags o); [destruct C as (x & C1 & ->); rewrite C1; reflexivity|now rewrite C]. }
  rewrite V. cbn [bind]. rewrite D. cbn [wv_tag bind]. rewrite N.sub_0_r. destruct (N.ltb_spec (if fd then lenN data - 128 else lenN data) 0); [lia|].
  unfold seek_back. destruct (N.ltb_spec (lenN (body ++ ape)) 32); [lia|]. rewrite E. cbn [wv_tag bind].
  assert (SL : (if fd then lenN data - 128 else lenN data) = lenN body + lenN ape) by (destruct fd; lia). rewrite SL.
  destruct h as [[size n]|].
  - destruct F as (-> & _ & _). destruct (N.ltb_spec (lenN body + lenN ape) (lenN ape)); [lia|]. cbn [bind]. now replace (lenN body + lenN ape - lenN ape) with (lenN body) by lia.
  - cbn [bind]. now rewrite F, lenN_nil, N.add_0_r.
Qed.
Lemma header_short : forall data off h, wv_header_read data off = Ok h -> off + 4 <= lenN data.
Proof.
  intros data off h H. unfold wv_header_read in H. destruct (read_exact 4 (dropN off data)) as [[id r]|] eqn:E; [|discriminate]. apply read_exact_spec in E as [E L].
  pose proof (f_equal lenN E) as X. rewrite lenN_app, lenN_dropN, L in X. lia.
Qed.
Lemma header_np : forall data off, wv_header_read data off <> Panic.
Proof. intros. unfold wv_header_read. destruct (read_exact 4 (dropN off data)) as [[id r]|]; [|discriminate]. destruct (negb _); [discriminate|]. destruct (le_at 4 data (off + 4)); [|discriminate]. destruct (_ <? 24); [discriminate|]. destruct (1048576 <? _); [discriminate|]. destruct (le_at 2 _ _), (le_at 4 data (off + 12)), (le_at 4 data (off + 20)), (le_at 4 data (off + 24)); discriminate. Qed.
Lemma blocks_np : forall fuel strict data off p t, (1 <= fuel)%nat -> lenN data < off + N.of_nat fuel -> wv_blocks fuel strict data off p t <> Panic.
Proof.
  induction fuel as [|fuel IH]; intros strict data off p t F1 F2; [lia|]. rewrite blocks_eq. destruct (wv_header_read data off) as [h|e|] eqn:H; [|destruct strict; discriminate|now apply header_np in H].
  apply header_short in H.
  assert (GO : forall p, go_of fuel strict data off h t p <> Panic).
  { intros q. unfold go_of. cbv zeta. destruct (_ && _); [destruct strict; discriminate|]. destruct (_ || _); [|discriminate]. apply IH; lia. }
  cbv zeta. destruct (_ || _); [|apply GO]. destruct (read_exact _ _) as [[b ?]|]; [|discriminate]. destruct (wv_meta _ _ _ _) as [q [e|]]; [destruct strict; discriminate|]. destruct (_ && _); [destruct strict; discriminate|]. apply GO.
Qed.
Lemma props_np : forall strict data n, wv_properties strict data n <> Panic.
Proof.
  intros. unfold wv_properties. pose proof (blocks_np (S (length data)) strict data 0 wv_default 0 ltac:(lia)) as B. destruct (wv_blocks _ _ _ _ _ _) as [[p t]|e|].
  - cbn [bind]. destruct (t =? U32_MAX); [discriminate|]. destruct (_ || _); [destruct strict; discriminate|discriminate].
  - discriminate.
  - exfalso. apply B; [|reflexivity]. unfold lenN. lia.
Qed.
(** The channel sub-block *)
Definition skipped (fuel : nat) (strict : bool) (rest : bytes) (q : wv_props) (r : wv_props * option wv_error) : Prop :=
  match rest with [] => exists e, r = (q, Some e) | _ :: rest => r = wv_meta fuel strict rest q end.
Lemma mask_skip : forall d m left fuel strict p c rest, skipped fuel strict rest (with_channels p c (le_dec m)) (meta_mask fuel strict (odd_len d) (lenN m) p c (m ++ left ++ pad d ++ rest) (lenN left + 1)).
Proof.
  intros. unfold meta_mask. rewrite read_exact_app by reflexivity. unfold meta_next. rewrite !lenN_app. unfold skipped, pad. destruct rest as [|x rest].
  - destruct (odd_len d).
    + destruct (N.ltb_spec (lenN left + (lenN [0%N] + @lenN N [])) (lenN left + 1)); [eauto|]. exists WIo. rewrite <- dropN_dropN, dropN_app by reflexivity. reflexivity.
    + rewrite lenN_nil. destruct (N.ltb_spec (lenN left + (0 + 0)) (lenN left + 1)); [eauto|lia].
  - destruct (odd_len d); rewrite ?lenN_cons, lenN_nil.
    + destruct (N.ltb_spec (lenN left + (1 + 0 + (1 + lenN rest))) (lenN left + 1)); [lia|]. rewrite <- dropN_dropN, dropN_app by reflexivity. reflexivity.
    + destruct (N.ltb_spec (lenN left + (0 + (1 + lenN rest))) (lenN left + 1)); [lia|]. rewrite <- dropN_dropN, dropN_app by reflexivity. reflexivity.
Qed.
(** After the channel sub-block, one byte too many is skipped. *)
Lemma sub_channels : forall d fuel strict p, sub_ok (13, d) -> channel_info d <> None -> exists q, wp_version q = wp_version p /\ wp_duration q = wp_duration p /\ wp_rate q = wp_rate p /\ wp_depth q = wp_depth p /\
  forall rest, skipped fuel strict rest q (wv_meta (S fuel) strict (sub_bytes (13, d) ++ rest) p).
Proof.
  intros d fuel strict p OK CI.
  assert (O0 : forall rest, wv_meta (S fuel) strict (sub_bytes (13, d) ++ rest) p = meta_body fuel strict 13 (odd_len d) (lenN d) (d ++ pad d ++ rest) p).
  { intros rest. apply sub_open; auto. intros E. rewrite E in CI. exact (CI eq_refl). }
  destruct d as [|c [|m0 [|m1 [|m2 [|m3 [|m4 [|m5 [|]]]]]]]]; try (exfalso; exact (CI eq_refl)).
  - exists (with_channels (with_channels p c (wp_mask p)) c (le_dec [m0])). do 4 (split; [reflexivity|]). intros rest. rewrite O0. exact (mask_skip [c; m0] [m0] [] fuel strict _ c rest).
  - exists (with_channels (with_channels p c (wp_mask p)) c (le_dec [m0; m1])). do 4 (split; [reflexivity|]). intros rest. rewrite O0. exact (mask_skip [c; m0; m1] [m0; m1] [] fuel strict _ c rest).
  - exists (with_channels (with_channels p c (wp_mask p)) c (le_dec [m0; m1; m2])). do 4 (split; [reflexivity|]). intros rest. rewrite O0. exact (mask_skip [c; m0; m1; m2] [m0; m1; m2] [] fuel strict _ c rest).
  - exists (with_channels (with_channels p c (wp_mask p)) c (le_dec [m0; m1; m2; m3])). do 4 (split; [reflexivity|]). intros rest. rewrite O0. exact (mask_skip [c; m0; m1; m2; m3] [m0; m1; m2; m3] [] fuel strict _ c rest).
  - set (cc := N.lor c (N.shiftl (N.land m0 0xF) 8) + 1). exists (with_channels (with_channels p cc (wp_mask p)) cc (le_dec [m1; m2; m3])). do 4 (split; [reflexivity|]). intros rest. rewrite O0. exact (mask_skip [c; m0; m1; m2; m3; m4] [m1; m2; m3] [m4] fuel strict _ cc rest).
  - set (cc := N.lor c (N.shiftl (N.land m0 0xF) 8) + 1). exists (with_channels (with_channels p cc (wp_mask p)) cc (le_dec [m1; m2; m3; m4])). do 4 (split; [reflexivity|]). intros rest. rewrite O0. exact (mask_skip [c; m0; m1; m2; m3; m4; m5] [m1; m2; m3; m4] [m5] fuel strict _ cc rest).
Qed.
