(** WavPack files. *)
From Verif Require Import BaseLemmas StrLemmas F64Proof ApeModel ApeThm2 ApeThm Id3v1Model Id3v1Thm Id3v2HeaderModel Id3v2HeaderThm FrameReadModel AiffModel MpegModel MpegProof3 MpegProof5 TailProof.
From Verif Require Export WavPackProof2.
From Verif Require Import Base Str.

(** A block that holds no samples, and a block that holds all the channels of some samples *)
Definition silent (kr : wblock * N) : Prop := block_ok (fst kr) /\ rate_is (fst kr) (snd kr) /\ snd kr < 2 ^ 32 /\ k_samples (fst kr) = 0.
Definition whole (k : wblock) : Prop := block_ok k /\ g_first (k_flags k) = true /\ g_last (k_flags k) = true /\ k_samples k <> 0.
(** A file: blocks without samples, a block, anything; then an APE tag and an ID3v1 tag, which may be missing. *)
Definition wv_body (l : list (wblock * N)) (k : wblock) (rest : bytes) : bytes := all_bytes l ++ block_bytes k ++ rest.
Definition wv_tags (o : mopts) (body ape v1 : bytes) (v1t : option id3v1) : Prop := file_end (body ++ ape ++ v1) v1 /\ old_tag body ape /\ v1_of o v1 v1t.

Lemma silent_going : forall l, Forall silent l -> Forall going l.
Proof. intros l. apply Forall_impl. intros [k r] (A & B & C & D). refine (conj A (conj B (conj C _))). cbn [fst] in *. unfold stops. now rewrite D. Qed.
Lemma effect_times : forall k r p, wp_duration (block_effect k r p) = wp_duration p /\ wp_overall (block_effect k r p) = wp_overall p /\ wp_audio (block_effect k r p) = wp_audio p.
Proof. intros. unfold block_effect. destruct (g_first (k_flags k)), (g_last (k_flags k)); repeat split. Qed.
Lemma effects_times : forall l p, wp_duration (effects l p) = wp_duration p /\ wp_overall (effects l p) = wp_overall p /\ wp_audio (effects l p) = wp_audio p.
Proof. induction l as [|[k r] l IH]; intros p; [repeat split|]. cbn [effects fold_left fst snd]. destruct (IH (block_effect k r p)) as (A & B & C). unfold effects in A, B, C. rewrite A, B, C. apply effect_times. Qed.
Lemma rate_nonzero : forall k r, rate_is k r -> r <> 0.
Proof.
  intros k r H. assert (S : forall i, i < 15 -> std_rate i <> 0). { intros i I. assert (X : In i [0;1;2;3;4;5;6;7;8;9;10;11;12;13;14]) by (cbn [In]; lia). cbn [In] in X. repeat destruct X as [<- | X]; [discriminate..|contradiction]. }
  assert (P : forall m, 2 ^ m <> 0) by (intros; now apply N.pow_nonzero). destruct H; try (intros Z; apply N.eq_mul_0 in Z as [Z|Z]); try (now apply P in Z); auto. now apply S in H.
Qed.
(** The properties of a file with such a block, when the duration is [d] and the bit rates [a] and [b] *)
Definition described (k : wblock) (rate d a b : N) : wv_props := mkWP (k_version k) d a b rate (block_channels k) (speakers k) (depth_of k) (negb (g_hybrid (k_flags k))).
Lemma props_whole : forall l k rate rest strict tail n, Forall silent l -> whole k -> rate_is k rate -> rate < 2 ^ 32 -> let data := wv_body l k rest ++ tail in
  wv_properties strict data n =
    if total_word k =? U32_MAX then Ok (described k rate 0 0 0)
    else if total_word k =? 0 then (if strict then Err WDuration else Ok (described k rate 0 0 0))
    else let len := f64_length (total_word k) rate in Ok (described k rate (f64_nearest_ms len) (f64_kbps (lenN data) len) (f64_kbps n len)).
Proof.
  intros l k rate rest strict tail n SL (OK & FI & LA & SA) R RL data. unfold wv_properties, data, wv_body. rewrite <- !app_assoc.
  rewrite (found l k rate strict (rest ++ tail)); auto; [|now apply silent_going|unfold stops; rewrite LA; destruct (N.eqb_spec (k_samples k) 0); [contradiction|reflexivity]].
  cbn [bind]. unfold block_total. rewrite FI. destruct (effects_times l wv_default) as (A & B & C).
  assert (E : block_effect k rate (effects l wv_default) = described k rate 0 0 0).
  { unfold block_effect. rewrite FI, LA. unfold described, with_channels, with_format, with_rate. cbn [wp_version wp_duration wp_overall wp_audio wp_rate wp_channels wp_mask wp_depth wp_lossless]. now rewrite A, B, C. }
  rewrite E. change (wp_rate (described k rate 0 0 0)) with rate. destruct (total_word k =? U32_MAX); [reflexivity|]. destruct (N.eqb_spec rate 0) as [Z|_]; [now apply (rate_nonzero k) in Z|]. rewrite orb_false_r. destruct (total_word k =? 0); reflexivity.
Qed.
Lemma body_32 : forall l k rest ape, 32 <= lenN (wv_body l k rest ++ ape).
Proof. intros. unfold wv_body. rewrite !lenN_app, block_len. lia. Qed.

(** ** Properties of the audio *)
Theorem C181_properties : forall o l k rate rest ape v1 v1t, mo_props o = true -> wv_tags o (wv_body l k rest) ape v1 v1t ->
  Forall silent l -> whole k -> rate_is k rate -> rate < 2 ^ 32 -> (forall n, k_total k = Some n -> n mod M32 <> 0) ->
  exists f, wv_read o (wv_body l k rest ++ ape ++ v1) = Ok f /\ wf_id3v1 f = v1t /\ ape_of o ape (wf_ape f) /\
    let p := wf_props f in
    wp_version p = k_version k /\ wp_rate p = rate /\ wp_channels p = block_channels k /\ wp_mask p = (if g_mono (k_flags k) then 4 else 3) /\
    wp_depth p = g_bytes (k_flags k) * 8 - g_shift (k_flags k) /\ wp_lossless p = negb (g_hybrid (k_flags k)).
Proof.
  intros o l k rate rest ape v1 v1t MP (FE & OT & V1) SL WH R RL T. destruct (read_shape o (wv_body l k rest) ape v1 v1t FE OT (body_32 l k rest ape) V1) as (t & AT & E). rewrite MP in E.
  rewrite (props_whole l k rate rest (mo_strict o) (ape ++ v1) _ SL WH R RL) in E. cbv zeta in E.
  destruct (total_word k =? U32_MAX) eqn:U. { eexists. split; [exact E|]. repeat split; auto. }
  destruct (N.eqb_spec (total_word k) 0) as [Z|_]. { exfalso. unfold total_word in *. destruct (k_total k) as [n|] eqn:KT; [|discriminate]. exact (T n eq_refl Z). }
  eexists. split; [exact E|]. repeat split; auto.
Qed.

(** Audio of more channels, in a block for each one or two: blocks of which none is first and last. *)
Lemma no_channels : forall l p, Forall (fun kr => g_first (k_flags (fst kr)) && g_last (k_flags (fst kr)) = false) l -> wp_channels (effects l p) = wp_channels p /\ wp_mask (effects l p) = wp_mask p.
Proof.
  induction l as [|[k r] l IH]; intros p F; [split; reflexivity|]. apply Forall_cons_iff in F as [A F]. cbn [effects fold_left fst snd] in *. destruct (IH (block_effect k r p) F) as [B C]. unfold effects in B, C. rewrite B, C.
  unfold block_effect. destruct (g_first (k_flags k)), (g_last (k_flags k)); try discriminate; split; reflexivity.
Qed.
Theorem C181_multichannel_refuted : forall o l k rate rest ape v1 v1t f, mo_props o = true -> wv_tags o (wv_body l k rest) ape v1 v1t ->
  Forall going l -> block_ok k -> stops k = true -> rate_is k rate -> rate < 2 ^ 32 -> l <> [] ->
  Forall (fun kr => g_first (k_flags (fst kr)) && g_last (k_flags (fst kr)) = false) l -> g_first (k_flags k) && g_last (k_flags k) = false ->
  wv_read o (wv_body l k rest ++ ape ++ v1) = Ok f -> wp_channels (wf_props f) = 0 /\ wp_mask (wf_props f) = 0 /\ 2 <= total_channels (map fst l ++ [k]).
Proof.
  intros o l k rate rest ape v1 v1t f MP (FE & OT & V1) G OK ST R RL NE NL NK H.
  assert (TC : 2 <= total_channels (map fst l ++ [k])).
  { unfold total_channels. rewrite fold_right_app. cbn [fold_right]. destruct l as [|[k0 r0] l]; [contradiction|]. cbn [map fold_right fst].
    assert (X : forall l n, n <= fold_right (fun k n => block_channels k + n) n l) by (induction l0; intros n; cbn [fold_right]; [lia|specialize (IHl0 n); lia]). specialize (X (map fst l) (block_channels k + 0)).
    assert (Y : forall k, 1 <= block_channels k) by (intros q; unfold block_channels; destruct (g_mono (k_flags q)); lia). pose proof (Y k). pose proof (Y k0). lia. }
  destruct (read_shape o (wv_body l k rest) ape v1 v1t FE OT (body_32 l k rest ape) V1) as (t & AT & E). rewrite MP in E. rewrite E in H. unfold wv_properties, wv_body in H. rewrite <- !app_assoc in H.
  rewrite (found l k rate (mo_strict o) (rest ++ ape ++ v1)) in H; auto. cbn [bind] in H.
  destruct (no_channels (l ++ [(k, rate)]) wv_default) as [A B]. { apply Forall_app. split; auto. }
  unfold effects in A, B. rewrite fold_left_app in A, B. cbn [fold_left fst snd] in A, B. fold (effects l wv_default) in A, B.
  destruct (_ =? U32_MAX). { injection H as <-. auto. } destruct (_ || _). { destruct (mo_strict o); [discriminate|]. injection H as <-. auto. } injection H as <-. auto.
Qed.

(** ** Rates and channels of the sub-blocks *)
Theorem C182_rate : forall o l k r rest ape v1 v1t a b, mo_props o = true -> wv_tags o (wv_body l k rest) ape v1 v1t -> Forall silent l -> whole k -> (forall n, k_total k = Some n -> n mod M32 <> 0) ->
  g_rate (k_flags k) = 15 -> r <> 0 -> r < 2 ^ 24 -> Forall other_sub a -> Forall other_sub b ->
  (g_dsd (k_flags k) = false -> k_subs k = a ++ (39, le_enc 3 r) :: b -> exists f, wv_read o (wv_body l k rest ++ ape ++ v1) = Ok f /\ wp_rate (wf_props f) = r) /\
  (forall m d c, g_dsd (k_flags k) = true -> k_subs k = a ++ (39, le_enc 3 r) :: b ++ (14, m :: d) :: c -> sub_ok (14, m :: d) -> d <> [] -> Forall other_sub c -> m <= 30 -> r * 2 ^ m < 2 ^ 32 ->
    exists f, wv_read o (wv_body l k rest ++ ape ++ v1) = Ok f /\ wp_rate (wf_props f) = r * 2 ^ m).
Proof.
  intros o l k r rest ape v1 v1t a b MP WT SL WH T G RZ RL A B. split.
  - intros D S. destruct (C181_properties o l k r rest ape v1 v1t MP WT SL WH) as (f & F & _ & _ & _ & FR & _); auto; [apply own; auto; rewrite S; now constructor|lia|eauto].
  - intros m d c D S OK NE C M RM.
    destruct (C181_properties o l k (r * 2 ^ m) rest ape v1 v1t MP WT SL WH) as (f & F & _ & _ & _ & FR & _); auto; [|eauto]. apply own_dsd; auto. rewrite S. now constructor.
Qed.

(** The channel sub-block is read one byte too far. As the last one of a block it makes an error: the block, and so the file, is as if empty. *)
Theorem C182_channels_refuted : forall o k r a b d rest ape v1 v1t, mo_props o = true -> wv_tags o (wv_body [] k rest) ape v1 v1t -> block_ok k ->
  g_rate (k_flags k) = 15 -> r < 2 ^ 24 -> Forall other_sub a -> Forall other_sub b -> channel_info d <> None -> k_subs k = a ++ (39, le_enc 3 r) :: b ++ [(13, d)] ->
  match wv_read o (wv_body [] k rest ++ ape ++ v1) with
  | Ok f => mo_strict o = false /\ wp_version (wf_props f) = 0 /\ wp_duration (wf_props f) = 0 /\ wp_depth (wf_props f) = 0
  | Err _ => mo_strict o = true
  | Panic => False
  end.
Proof.
  intros o k r a b d rest ape v1 v1t MP (FE & OT & V1) OK G RL A B CI S. destruct (read_shape o (wv_body [] k rest) ape v1 v1t FE OT (body_32 [] k rest ape) V1) as (t & AT & E). rewrite MP in E. rewrite E. clear E.
  unfold wv_properties, wv_body. cbn [all_bytes flat_map app]. rewrite <- !app_assoc.
  assert (SO : sub_ok (13, d)). { destruct OK as (_ & _ & _ & _ & _ & _ & SO & _). rewrite S in SO. apply Forall_app in SO as [_ SO]. apply Forall_cons_iff in SO as [_ SO]. apply Forall_app in SO as [_ SO]. now apply Forall_cons_iff in SO as [SO _]. }
  assert (OK' := OK). destruct OK' as (_ & _ & _ & _ & GO & _). destruct (flag_fields _ GO) as (_ & _ & _ & _ & _ & _ & FR & _ & _).
  rewrite blocks_eq. pose proof (header_ok [] k (rest ++ ape ++ v1) OK) as HO. cbn [app] in HO. change (lenN []) with 0 in HO. rewrite HO. cbv zeta. change (wh_flags (header_of_block k)) with (flag_word (k_flags k)). change (wh_size (header_of_block k)) with (24 + lenN (k_body k)). rewrite FR, G.
  change ((15 =? 15) || N.testbit (flag_word (k_flags k)) 31) with true. cbv iota. pose proof (body_ok [] k (rest ++ ape ++ v1)) as BO. cbn [app] in BO. change (lenN [] + 32) with (0 + 32) in BO. rewrite BO.
  set (p0 := with_rate wv_default _). set (fuel := length (k_body k)).
  assert (M : exists q e, wv_meta (Datatypes.S fuel) (mo_strict o) (k_body k) p0 = (q, Some e) /\ wp_version q = 0 /\ wp_duration q = 0 /\ wp_depth q = 0).
  { pose proof (subs_len (k_subs k)) as SLN. fold (k_body k) in SLN. fold fuel in SLN. unfold k_body. rewrite S in *. rewrite !app_length in SLN. cbn [length] in SLN. rewrite app_length in SLN. cbn [length] in SLN.
    rewrite flat_map_app. cbn [flat_map]. rewrite flat_map_app. cbn [flat_map]. rewrite app_nil_r.
    replace (Datatypes.S fuel) with (length a + Datatypes.S (length b + Datatypes.S (fuel - length a - length b - 1)))%nat by lia.
    rewrite subs_other by auto. rewrite sub_rate by auto. rewrite subs_other by auto.
    destruct (sub_channels d (fuel - length a - length b - 1) (mo_strict o) (with_rate p0 r) SO CI) as (q & Q1 & Q2 & Q3 & Q4 & Q5). specialize (Q5 []). cbn [skipped] in Q5. rewrite app_nil_r in Q5. destruct Q5 as [e Q5]. exists q, e. rewrite Q5. auto. }
  destruct M as (q & e & M & Q1 & Q2 & Q3). rewrite M. destruct (mo_strict o); cbn [bind]; [reflexivity|]. change (0 =? U32_MAX) with false. change (0 =? 0) with true. cbn [orb]. cbv iota. cbn [bind]. auto.
Qed.

(** ** Duration and bit rates *)
Theorem C183_duration : forall o l k n rate rest ape v1 v1t, mo_props o = true -> wv_tags o (wv_body l k rest) ape v1 v1t -> Forall silent l -> whole k -> rate_is k rate -> rate < 2 ^ 32 ->
  k_total k = Some n -> 0 < n < M32 ->
  let body := wv_body l k rest in let data := body ++ ape ++ v1 in
  exists f, wv_read o data = Ok f /\ wp_duration (wf_props f) = (2 * (n * 1000) + rate) / (2 * rate) /\
    (lenN data < 2 ^ 50 -> lenN data * 8 * rate < U32_MAX * (n * 1000) ->
     nearly_nearest (wp_overall (wf_props f)) (lenN data * 8 * rate) (n * 1000) /\ nearly_nearest (wp_audio (wf_props f)) (lenN body * 8 * rate) (n * 1000)).
Proof.
  intros o l k n rate rest ape v1 v1t MP (FE & OT & V1) SL WH R RL KT NB body data. destruct (read_shape o (wv_body l k rest) ape v1 v1t FE OT (body_32 l k rest ape) V1) as (t & AT & E). rewrite MP in E.
  rewrite (props_whole l k rate rest (mo_strict o) (ape ++ v1) _ SL WH R RL) in E. cbv zeta in E. fold body in E. fold data in E.
  assert (TW : total_word k = n) by (unfold total_word; rewrite KT; apply N.mod_small; lia). rewrite TW in E. pose proof (rate_nonzero k rate R) as RZ.
  destruct (N.eqb_spec n U32_MAX) as [X|_]. { unfold M32, U32_MAX in *. lia. } destruct (N.eqb_spec n 0); [lia|]. cbn [bind] in E. eexists. split; [exact E|]. cbn [wf_props described wp_duration wp_overall wp_audio].
  assert (M32 < 2 ^ 32) by reflexivity. split. { apply nearest_length; lia. }
  intros S1 S2. assert (LB : 0 < lenN body) by (unfold body, wv_body; rewrite !lenN_app, block_len; lia). assert (LD : lenN body <= lenN data) by (unfold data; rewrite !lenN_app; lia).
  split; apply kbps_near; try lia. apply N.le_lt_trans with (2 := S2). apply N.mul_le_mono_r. lia.
Qed.
Theorem C183_unknown : forall o l k rate rest ape v1 v1t, mo_props o = true -> wv_tags o (wv_body l k rest) ape v1 v1t -> Forall silent l -> whole k -> rate_is k rate -> rate < 2 ^ 32 ->
  k_total k = None -> exists f, wv_read o (wv_body l k rest ++ ape ++ v1) = Ok f /\ wp_duration (wf_props f) = 0 /\ wp_overall (wf_props f) = 0 /\ wp_audio (wf_props f) = 0.
Proof.
  intros o l k rate rest ape v1 v1t MP (FE & OT & V1) SL WH R RL KT. destruct (read_shape o (wv_body l k rest) ape v1 v1t FE OT (body_32 l k rest ape) V1) as (t & AT & E). rewrite MP in E.
  rewrite (props_whole l k rate rest (mo_strict o) (ape ++ v1) _ SL WH R RL) in E. cbv zeta in E. unfold total_word in E. rewrite KT in E. change (M32 =? U32_MAX) with true in E. cbn [bind] in E. eexists. split; [exact E|]. auto.
Qed.
(** The 40-bit number of samples loses its upper byte. *)
Theorem C183_long_refuted : forall o l k n rate rest ape v1 v1t, mo_props o = true -> wv_tags o (wv_body l k rest) ape v1 v1t -> Forall silent l -> whole k -> rate_is k rate -> rate < 2 ^ 32 ->
  k_total k = Some n -> n mod M32 <> 0 -> exists f, wv_read o (wv_body l k rest ++ ape ++ v1) = Ok f /\ wp_duration (wf_props f) = (2 * (n mod M32 * 1000) + rate) / (2 * rate).
Proof.
  intros o l k n rate rest ape v1 v1t MP (FE & OT & V1) SL WH R RL KT NZ. destruct (read_shape o (wv_body l k rest) ape v1 v1t FE OT (body_32 l k rest ape) V1) as (t & AT & E). rewrite MP in E.
  rewrite (props_whole l k rate rest (mo_strict o) (ape ++ v1) _ SL WH R RL) in E. cbv zeta in E. unfold total_word in E. rewrite KT in E. pose proof (rate_nonzero k rate R) as RZ. pose proof (N.mod_lt n M32 ltac:(discriminate)) as ML.
  destruct (N.eqb_spec (n mod M32) U32_MAX) as [X|_]. { unfold M32, U32_MAX in *. lia. } destruct (N.eqb_spec (n mod M32) 0); [lia|]. cbn [bind] in E. eexists. split; [exact E|]. cbn [wf_props described wp_duration].
  assert (M32 < 2 ^ 32) by reflexivity. apply nearest_length; lia.
Qed.

(** ** Totality *)
Lemma v1_np : forall data found strict tags p1, bytes_ok data -> find_id3v1 data = (p1, found) ->
  p1 <= lenN data /\ (found = true -> p1 = lenN data - 128 /\ 128 <= lenN data) /\ (found = false -> p1 = lenN data) /\ (if found && tags then let? t := wv_tag (v1_parse (dropN p1 data) strict) in Ok (Some t) else Ok None) <> @Panic wv_error (option id3v1).
Proof.
  intros data found strict tags p1 OK F.
  assert (P1 : p1 <= lenN data /\ (found = true -> p1 = lenN data - 128 /\ 128 <= lenN data) /\ (found = false -> p1 = lenN data)).
  { unfold find_id3v1 in F. destruct (N.ltb_spec (lenN data) 128); [injection F as <- <-; repeat split; try lia; discriminate|]. destruct (list_eqb _ TAG); injection F as <- <-; repeat split; intros; try lia; try discriminate. }
  destruct P1 as (P1 & P2 & P3). repeat split; auto; try apply P2; auto. destruct (found && tags) eqn:FM; [|discriminate]. apply andb_true_iff in FM as [-> _]. destruct (P2 eq_refl) as [-> L128]. pose proof (C47_parse_total (dropN (lenN data - 128) data) strict) as T.
  rewrite lenN_dropN in T. specialize (T ltac:(lia) (ok_drop _ _ OK)). destruct (v1_parse _ _); cbn [wv_tag bind]; try discriminate. contradiction.
Qed.
Lemma le4_eq : forall pos r, rd_le4 (pos, r) = match read_exact 4 r with Some (b, rest) => Ok (le_dec b, (pos + 4, rest)) | None => Err AIo end.
Proof. intros. unfold rd_le4, read_le. cbn [fst snd]. destruct (read_exact 4 r) as [[b rest]|]; reflexivity. Qed.
Theorem C184_total : forall o data, bytes_ok data ->
  (lenN data < 128 \/ takeN 3 (dropN (lenN data - 128) data) <> $"TAG" \/ takeN 8 (dropN (lenN data - 160) data) <> $"APETAGEX" \/ le_dec (takeN 4 (dropN (lenN data - 160 + 12) data)) + 160 <= lenN data) ->
  wv_read o data <> Panic.
Proof.
  intros o data OK C. unfold wv_read. destruct (find_id3v1 data) as [p1 fd] eqn:F. destruct (v1_np data fd (mo_strict o) (mo_tags o) p1 OK F) as (P1 & P2 & P3 & V).
  match type of V with ?x <> _ => destruct x as [v1| |]; [|discriminate|contradiction] end. cbn [bind].
  pose proof (C35_never_recognised data p1 P1) as LY. destruct (find_lyrics3v2 data p1) as [[[lf ls] pos]| |]; [|discriminate|contradiction]. destruct LY as (_ & -> & ->). cbn [wv_tag bind].
  rewrite N.sub_0_r. destruct (N.ltb_spec (if fd then lenN data - 128 else lenN data) 0); [lia|]. destruct (seek_back p1 32) as [s|] eqn:SB; [|discriminate].
  assert (SB' : s = p1 - 32 /\ 32 <= p1). { unfold seek_back in SB. destruct (N.ltb_spec p1 32); [discriminate|]. injection SB as <-. split; [reflexivity|lia]. } destruct SB' as [-> L32].
  pose proof (C70_read_tag_total data true (fo_cover (mo_frames o)) (mo_tags o) (rd_at data (p1 - 32))) as RT.
  destruct (read_ape_tag data true (fo_cover (mo_frames o)) (mo_tags o) (rd_at data (p1 - 32))) as [[[t h] r]| |] eqn:E; [|discriminate|contradiction]. cbn [wv_tag bind].
  assert (SZ : match h with Some (size, _) => size <= (if fd then lenN data - 128 else lenN data) | None => True end).
  { unfold read_ape_tag in E. destruct (rd_exact 8 (rd_at data (p1 - 32))) as [[pre r1]| |] eqn:E1; try discriminate. cbn [bind] in E. destruct (list_eqb pre PREAMBLE) eqn:PR; [|injection E as _ <- _; exact I].
    destruct (read_ape_header data true r1) as [[[size count] r2]| |] eqn:E2; try discriminate. cbn [bind] in E.
    assert (HS : h = Some (size, count)). { destruct (mo_tags o); [|now injection E]. destruct (read_with_header _ _ _ _) as [[t1 r3]| |]; try discriminate. now injection E. } subst h.
    unfold rd_exact, rd_at in E1. cbn [snd fst] in E1. destruct (read_exact 8 (dropN (p1 - 32) data)) as [[b0 rest0]|] eqn:X0; [|discriminate E1]. cbn [or_io bind] in E1. injection E1 as -> <-. apply read_exact_spec in X0 as [X0 L0].
    unfold read_ape_header in E2. rewrite (le4_eq _ rest0) in E2. destruct (read_exact 4 rest0) as [[b1 rest1]|] eqn:X1; [|discriminate E2]. cbn [bind] in E2. apply read_exact_spec in X1 as [X1 L1].
    rewrite (le4_eq _ rest1) in E2. destruct (read_exact 4 rest1) as [[b2 rest2]|] eqn:X2; [|discriminate E2]. cbn [bind] in E2. apply read_exact_spec in X2 as [X2 L2].
    assert (SB2 : le_dec (takeN 4 (dropN (p1 - 32 + 12) data)) = le_dec b2).
    { rewrite <- dropN_dropN, X0, X1, X2. rewrite (app_assoc pre b1). rewrite dropN_app by (rewrite lenN_app; lia). now rewrite takeN_app. }
    assert (SP : takeN 8 (dropN (p1 - 32) data) = $"APETAGEX"). { rewrite X0, takeN_app by auto. now apply list_eqb_eq in PR. }
    assert (S1 : size <= le_dec b2 + 32 /\ size <= lenN data).
    { destruct (le_dec b2 <? 32); [discriminate E2|]. match type of E2 with context [rd_le4 ?x] => destruct (rd_le4 x) as [[c3 r3]| |]; try discriminate end. cbn [bind] in E2. match type of E2 with context [seek_back ?a ?b] => destruct (seek_back a b); [|discriminate E2] end. cbn [bind] in E2.
      destruct (N.ltb_spec (lenN data) (if le_dec b1 =? 2000 then N.min U32_MAX (le_dec b2 + 32) else le_dec b2)); [discriminate|]. injection E2 as <- _ _. split; [|auto]. destruct (le_dec b1 =? 2000); lia. }
    destruct fd; [|lia]. destruct (P2 eq_refl) as [EP L128]. destruct C as [C|[C|[C|C]]].
    - lia.
    - exfalso. apply C. unfold find_id3v1 in F. destruct (N.ltb_spec (lenN data) 128); [lia|]. destruct (list_eqb _ TAG) eqn:TT; [now apply list_eqb_eq in TT|discriminate].
    - exfalso. apply C. replace (lenN data - 160) with (p1 - 32) by lia. exact SP.
    - replace (lenN data - 160 + 12) with (p1 - 32 + 12) in C by lia. rewrite SB2 in C. lia. }
  destruct h as [[size cnt]|].
  - destruct (N.ltb_spec (if fd then lenN data - 128 else lenN data) size); [lia|]. cbn [bind]. destruct (mo_props o); [|discriminate]. pose proof (props_np (mo_strict o) data ((if fd then lenN data - 128 else lenN data) - size)) as PN. destruct (wv_properties _ _ _); try discriminate. contradiction.
  - cbn [bind]. destruct (mo_props o); [|discriminate]. pose proof (props_np (mo_strict o) data (if fd then lenN data - 128 else lenN data)) as PN. destruct (wv_properties _ _ _); try discriminate. contradiction.
Qed.

(** ** Tags *)
Theorem C185_tags : forall o body ape v1 v1t, wv_tags o body ape v1 v1t -> 32 <= lenN (body ++ ape) ->
  match wv_read o (body ++ ape ++ v1) with
  | Ok f => wf_id3v1 f = v1t /\ ape_of o ape (wf_ape f)
  | Err _ => mo_props o = true
  | Panic => False
  end.
Proof.
  intros o body ape v1 v1t (FE & OT & V1) L32. destruct (read_shape o body ape v1 v1t FE OT L32 V1) as (t & AT & ->). destruct (mo_props o); [|auto].
  pose proof (props_np (mo_strict o) (body ++ ape ++ v1) (lenN body)) as PN. destruct (wv_properties _ _ _); cbn [bind]; auto.
Qed.

(** ** Examples *)
Definition ex_flags (mono first last : bool) (rate : N) (dsd : bool) : wflags := mkFl 2 mono false 0 first last 0 15 rate 0 dsd.
Definition ex_block (f : wflags) (subs : list sub) : wblock := mkWB 0x407 (Some 44100) 0 22050 f 0xDEADBEEF subs.
Definition ex_mono : wblock := ex_block (ex_flags true true true 9 false) [(2, [1; 2; 3]); (10, repeat 7 20)].
Definition ex_intro : wblock := mkWB 0x407 None 0 0 (ex_flags true true true 9 false) 0 [(33, [82; 73; 70; 70])].
Definition ex_opts (strict : bool) : mopts := mkMO (mkFO (if strict then Strict else Relaxed) true false) true true 1024.
Example ex_whole : whole ex_mono /\ rate_is ex_mono 44100 /\ silent (ex_intro, 44100).
Proof.
  assert (R : rate_is ex_mono 44100) by (apply (std ex_mono); reflexivity). assert (R2 : rate_is ex_intro 44100) by (apply (std ex_intro); reflexivity).
  repeat split; auto; try (cbn; lia); try discriminate; repeat constructor; cbn; try lia; repeat constructor.
Qed.
Example C181_example : wv_read (ex_opts true) (wv_body [(ex_intro, 44100)] ex_mono [1; 2; 3]) = Ok (mkWF None None (mkWP 0x407 1000 1 1 44100 1 4 16 true)).
Proof. vm_compute. reflexivity. Qed.
Example C181_example_six : let a := ex_block (ex_flags false true false 10 false) [] in let b := ex_block (ex_flags false false false 10 false) [] in let c := ex_block (ex_flags false false true 10 false) [] in
  wv_read (ex_opts true) (wv_body [(a, 48000); (b, 48000)] c []) = Ok (mkWF None None (mkWP 0x407 919 1 1 48000 0 0 16 true)) /\ total_channels [a; b; c] = 6.
Proof. vm_compute. auto. Qed.
Example C182_example : let k := ex_block (ex_flags true true true 15 true) [(39, le_enc 3 11025); (2, [1; 2; 3]); (14, [1; 9; 9])] in
  wv_read (ex_opts true) (wv_body [] k []) = Ok (mkWF None None (mkWP 0x407 2000 0 0 22050 1 4 16 true)).
Proof. vm_compute. reflexivity. Qed.
Example C182_example_channels : let k := ex_block (ex_flags false true false 15 false) [(39, le_enc 3 11025); (13, [6; 63])] in
  (exists e, wv_read (ex_opts true) (wv_body [] k []) = Err e) /\ wv_read (ex_opts false) (wv_body [] k []) = Ok (mkWF None None (mkWP 0 0 0 0 11025 6 63 0 false)).
Proof. vm_compute. eauto. Qed.
(** Followed by another sub-block, whose first byte is skipped, so that its size is taken for its kind and its first byte for its size. *)
Example C182_example_shifted : let k := ex_block (ex_flags false true true 15 false) [(13, [2; 3]); (39, le_enc 3 11025)] in
  channel_info [2; 3] = Some (2, 3) /\ exists e, wv_read (ex_opts true) (wv_body [] k []) = Err e.
Proof. vm_compute. eauto. Qed.
(** Three bytes of a sample rate of four are read. *)
Example C182_example_four : let k := ex_block (ex_flags true true true 15 false) [(39, le_enc 4 22579200)] in
  22579200 = 2 ^ 24 + 5801984 /\ match wv_read (ex_opts true) (wv_body [] k []) with Ok f => wp_rate (wf_props f) = 5801984 | _ => False end.
Proof. vm_compute. auto. Qed.
Example C183_example_long : let k := mkWB 0x407 (Some (M32 + 44100)) 0 22050 (ex_flags true true true 9 false) 0 [] in
  match wv_read (ex_opts true) (wv_body [] k []) with Ok f => wp_duration (wf_props f) = 1000 | _ => False end.
Proof. vm_compute. auto. Qed.
(** An APE footer that says 32 bytes, which are counted as 64, and an ID3v1 tag *)
Definition ex_overlong : bytes := $"APETAGEX" ++ le_enc 4 2000 ++ le_enc 4 32 ++ le_enc 4 0 ++ le_enc 4 0 ++ le_enc 8 0 ++ $"TAG" ++ repeat 0 90 ++ $"2000" ++ repeat 0 31.
Theorem C184_ape_size_refuted : exists data, bytes_ok data /\ forall strict, wv_read (ex_opts strict) data = Panic.
Proof. exists ex_overlong. split. { apply Forall_forall. intros x X. assert (H : forallb (fun b => b <? 256) ex_overlong = true) by reflexivity. rewrite forallb_forall in H. specialize (H x X). now apply N.ltb_lt in H. } intros []; vm_compute; reflexivity. Qed.
Example C185_example : match wv_read (ex_opts true) (wv_body [] ex_mono [] ++ $"TAG" ++ $"Title" ++ repeat 0 85 ++ $"2000" ++ repeat 0 30 ++ [255]) with
  Ok f => match wf_id3v1 f with Some t => True | None => False end /\ wf_ape f = None /\ wp_duration (wf_props f) = 1000 | _ => False end.
Proof. vm_compute. auto. Qed.

Print Assumptions C181_properties.
Print Assumptions C181_multichannel_refuted.
Print Assumptions C182_rate.
Print Assumptions C182_channels_refuted.
Print Assumptions C183_duration.
Print Assumptions C183_unknown.
Print Assumptions C183_long_refuted.
Print Assumptions C184_total.
Print Assumptions C184_ape_size_refuted.
Print Assumptions C185_tags.
