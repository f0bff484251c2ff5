(** The sub-blocks and headers of WavPack blocks. *)
From Verif Require Import BaseLemmas StrLemmas MpegProof F64Proof.
From Verif Require Export WavPackSpec.
From Verif Require Import Base Str.

Lemma bit_land : forall w k, N.testbit w k = (N.land (N.shiftr w k) 1 =? 1).
Proof.
  intros. change 1 with (N.ones 1) at 1. rewrite N.land_ones. change (2 ^ 1) with 2. rewrite N.testbit_odd. rewrite <- N.bit0_mod, N.bit0_odd. now destruct (N.odd _).
Qed.
Lemma bitv_lt : forall b, bitv b < 2. Proof. intros []; cbv; auto. Qed.
Lemma bit_field : forall w k a b c, w = a * 2 ^ (k + 1) + bitv b * 2 ^ k + c -> c < 2 ^ k -> N.testbit w k = b.
Proof. intros w k a b c E C. rewrite bit_land. pose proof (field w k 1 a (bitv b) c E) as F. change (N.ones 1) with 1 in F. rewrite F by (auto; destruct b; reflexivity). now destruct b. Qed.
Lemma flag_fields : forall g, wflags_ok g -> let w := flag_word g in
  N.land w 3 = g_bytes g - 1 /\ N.testbit w 2 = g_mono g /\ N.testbit w 3 = g_hybrid g /\ N.testbit w 11 = g_first g /\ N.testbit w 12 = g_last g /\
  N.land (N.shiftr w 13) 31 = g_shift g /\ N.land (N.shiftr w 23) 15 = g_rate g /\ N.testbit w 31 = g_dsd g /\ w < 2 ^ 32.
Proof.
  intros g (B & M & S & G & R & H) w. pose proof (bitv_lt (g_mono g)). pose proof (bitv_lt (g_hybrid g)). pose proof (bitv_lt (g_first g)). pose proof (bitv_lt (g_last g)). pose proof (bitv_lt (g_dsd g)).
  repeat split.
  - replace w with (N.shiftr w 0) by apply N.shiftr_0_r. apply (field w 0 2 (bitv (g_mono g) + bitv (g_hybrid g) * 2 + g_mid g * 2 ^ 2 + bitv (g_first g) * 2 ^ 9 + bitv (g_last g) * 2 ^ 10 + g_shift g * 2 ^ 11 + g_mag g * 2 ^ 16 + g_rate g * 2 ^ 21 + g_high g * 2 ^ 25 + bitv (g_dsd g) * 2 ^ 29) _ 0); [unfold w, flag_word; lia|lia|lia].
  - apply (bit_field w 2 (bitv (g_hybrid g) + g_mid g * 2 + bitv (g_first g) * 2 ^ 8 + bitv (g_last g) * 2 ^ 9 + g_shift g * 2 ^ 10 + g_mag g * 2 ^ 15 + g_rate g * 2 ^ 20 + g_high g * 2 ^ 24 + bitv (g_dsd g) * 2 ^ 28) _ (g_bytes g - 1)); [unfold w, flag_word; lia|lia].
  - apply (bit_field w 3 (g_mid g + bitv (g_first g) * 2 ^ 7 + bitv (g_last g) * 2 ^ 8 + g_shift g * 2 ^ 9 + g_mag g * 2 ^ 14 + g_rate g * 2 ^ 19 + g_high g * 2 ^ 23 + bitv (g_dsd g) * 2 ^ 27) _ (g_bytes g - 1 + bitv (g_mono g) * 2 ^ 2)); [unfold w, flag_word; lia|lia].
  - apply (bit_field w 11 (bitv (g_last g) + g_shift g * 2 + g_mag g * 2 ^ 6 + g_rate g * 2 ^ 11 + g_high g * 2 ^ 15 + bitv (g_dsd g) * 2 ^ 19) _ (g_bytes g - 1 + bitv (g_mono g) * 2 ^ 2 + bitv (g_hybrid g) * 2 ^ 3 + g_mid g * 2 ^ 4)); [unfold w, flag_word; lia|lia].
  - apply (bit_field w 12 (g_shift g + g_mag g * 2 ^ 5 + g_rate g * 2 ^ 10 + g_high g * 2 ^ 14 + bitv (g_dsd g) * 2 ^ 18) _ (g_bytes g - 1 + bitv (g_mono g) * 2 ^ 2 + bitv (g_hybrid g) * 2 ^ 3 + g_mid g * 2 ^ 4 + bitv (g_first g) * 2 ^ 11)); [unfold w, flag_word; lia|lia].
  - apply (field w 13 5 (g_mag g + g_rate g * 2 ^ 5 + g_high g * 2 ^ 9 + bitv (g_dsd g) * 2 ^ 13) _ (g_bytes g - 1 + bitv (g_mono g) * 2 ^ 2 + bitv (g_hybrid g) * 2 ^ 3 + g_mid g * 2 ^ 4 + bitv (g_first g) * 2 ^ 11 + bitv (g_last g) * 2 ^ 12)); [unfold w, flag_word; lia|lia|lia].
  - apply (field w 23 4 (g_high g + bitv (g_dsd g) * 2 ^ 4) _ (g_bytes g - 1 + bitv (g_mono g) * 2 ^ 2 + bitv (g_hybrid g) * 2 ^ 3 + g_mid g * 2 ^ 4 + bitv (g_first g) * 2 ^ 11 + bitv (g_last g) * 2 ^ 12 + g_shift g * 2 ^ 13 + g_mag g * 2 ^ 18)); [unfold w, flag_word; lia|lia|lia].
  - apply (bit_field w 31 0 _ (g_bytes g - 1 + bitv (g_mono g) * 2 ^ 2 + bitv (g_hybrid g) * 2 ^ 3 + g_mid g * 2 ^ 4 + bitv (g_first g) * 2 ^ 11 + bitv (g_last g) * 2 ^ 12 + g_shift g * 2 ^ 13 + g_mag g * 2 ^ 18 + g_rate g * 2 ^ 23 + g_high g * 2 ^ 27)); [unfold w, flag_word; lia|lia].
  - unfold w, flag_word. lia.
Qed.

(** ** Headers *)
Lemma le_at_app : forall n v a b data pos, data = a ++ le_enc n v ++ b -> pos = lenN a -> v < 256 ^ N.of_nat n -> le_at n data pos = Some v.
Proof. intros n v a b data pos -> -> V. unfold le_at. rewrite dropN_app by reflexivity. rewrite read_exact_app by apply le_enc_len. now rewrite le_dec_enc. Qed.
Definition total_word (k : wblock) : N := match k_total k with Some n => n mod M32 | None => M32 end.
Lemma total_lt : forall k, total_word k <= M32 /\ (k_total k <> None -> total_word k < M32).
Proof. intros k. unfold total_word. destruct (k_total k) as [n|]; [|split; [lia|congruence]]. pose proof (N.mod_lt n M32 ltac:(discriminate)). split; lia. Qed.
Lemma block_len : forall k, lenN (block_bytes k) = 32 + lenN (k_body k).
Proof. intros. unfold block_bytes. rewrite !lenN_app, !le_enc_len. change (lenN ($"wvpk")) with 4. rewrite !lenN_cons, lenN_nil. lia. Qed.
Definition header_of_block (k : wblock) : wv_header := mkWH (k_version k) (24 + lenN (k_body k)) (total_word k) (k_samples k) (flag_word (k_flags k)).
Lemma header_ok : forall pre k rest, block_ok k -> wv_header_read (pre ++ block_bytes k ++ rest) (lenN pre) = Ok (header_of_block k).
Proof.
  intros pre k rest (V & T & I & S & G & C & _ & Z). destruct (flag_fields _ G) as (_ & _ & _ & _ & _ & _ & _ & _ & F). destruct (total_lt k) as [TL _]. unfold wv_header_read.
  set (d := pre ++ block_bytes k ++ rest). unfold block_bytes in d. fold (total_word k) in d.
  assert (M : exists r, read_exact 4 (dropN (lenN pre) d) = Some ($"wvpk", r)). { unfold d. rewrite dropN_app by reflexivity. rewrite <- !app_assoc. rewrite read_exact_app by reflexivity. eauto. }
  destruct M as [? M]. rewrite M. change (list_eqb ($"wvpk") ($"wvpk")) with true. cbn [negb].
  rewrite (le_at_app 4 (24 + lenN (k_body k)) (pre ++ $"wvpk") (le_enc 2 (k_version k) ++ [k_index k / 2 ^ 32; match k_total k with Some n => n / M32 | None => 0 end] ++ le_enc 4 (total_word k) ++ le_enc 4 (k_index k mod 2 ^ 32) ++ le_enc 4 (k_samples k) ++ le_enc 4 (flag_word (k_flags k)) ++ le_enc 4 (k_crc k) ++ k_body k ++ rest));
    [|unfold d; rewrite <- !app_assoc; reflexivity|rewrite lenN_app; reflexivity|change (256 ^ N.of_nat 4) with (2 ^ 32); lia].
  destruct (N.ltb_spec (24 + lenN (k_body k)) 24); [lia|]. destruct (N.ltb_spec 1048576 (24 + lenN (k_body k))); [lia|].
  rewrite (le_at_app 2 (k_version k) (pre ++ $"wvpk" ++ le_enc 4 (24 + lenN (k_body k))) ([k_index k / 2 ^ 32; match k_total k with Some n => n / M32 | None => 0 end] ++ le_enc 4 (total_word k) ++ le_enc 4 (k_index k mod 2 ^ 32) ++ le_enc 4 (k_samples k) ++ le_enc 4 (flag_word (k_flags k)) ++ le_enc 4 (k_crc k) ++ k_body k ++ rest));
    [|unfold d; rewrite <- !app_assoc; reflexivity|rewrite !lenN_app, le_enc_len; reflexivity|change (256 ^ N.of_nat 2) with (2 ^ 16); lia].
  rewrite (le_at_app 4 (total_word k) (pre ++ $"wvpk" ++ le_enc 4 (24 + lenN (k_body k)) ++ le_enc 2 (k_version k) ++ [k_index k / 2 ^ 32; match k_total k with Some n => n / M32 | None => 0 end]) (le_enc 4 (k_index k mod 2 ^ 32) ++ le_enc 4 (k_samples k) ++ le_enc 4 (flag_word (k_flags k)) ++ le_enc 4 (k_crc k) ++ k_body k ++ rest));
    [|unfold d; rewrite <- !app_assoc; reflexivity|rewrite !lenN_app, !le_enc_len; reflexivity|unfold M32 in *; change (256 ^ N.of_nat 4) with (2 ^ 32); lia].
  rewrite (le_at_app 4 (k_samples k) (pre ++ $"wvpk" ++ le_enc 4 (24 + lenN (k_body k)) ++ le_enc 2 (k_version k) ++ [k_index k / 2 ^ 32; match k_total k with Some n => n / M32 | None => 0 end] ++ le_enc 4 (total_word k) ++ le_enc 4 (k_index k mod 2 ^ 32)) (le_enc 4 (flag_word (k_flags k)) ++ le_enc 4 (k_crc k) ++ k_body k ++ rest));
    [|unfold d; rewrite <- !app_assoc; reflexivity|rewrite !lenN_app, !le_enc_len; reflexivity|exact S].
  rewrite (le_at_app 4 (flag_word (k_flags k)) (pre ++ $"wvpk" ++ le_enc 4 (24 + lenN (k_body k)) ++ le_enc 2 (k_version k) ++ [k_index k / 2 ^ 32; match k_total k with Some n => n / M32 | None => 0 end] ++ le_enc 4 (total_word k) ++ le_enc 4 (k_index k mod 2 ^ 32) ++ le_enc 4 (k_samples k)) (le_enc 4 (k_crc k) ++ k_body k ++ rest));
    [|unfold d; rewrite <- !app_assoc; reflexivity|rewrite !lenN_app, !le_enc_len; reflexivity|exact F].
  reflexivity.
Qed.
Lemma body_ok : forall pre k rest, read_exact (24 + lenN (k_body k) - 24) (dropN (lenN pre + 32) (pre ++ block_bytes k ++ rest)) = Some (k_body k, rest).
Proof.
  intros. replace (24 + lenN (k_body k) - 24) with (lenN (k_body k)) by lia. rewrite <- dropN_dropN, dropN_app by reflexivity.
  assert (E : exists h, block_bytes k = h ++ k_body k /\ lenN h = 32).
  { unfold block_bytes. exists ($"wvpk" ++ le_enc 4 (24 + lenN (k_body k)) ++ le_enc 2 (k_version k) ++ [k_index k / 2 ^ 32; match k_total k with Some n => n / M32 | None => 0 end] ++ le_enc 4 (total_word k) ++ le_enc 4 (k_index k mod 2 ^ 32) ++ le_enc 4 (k_samples k) ++ le_enc 4 (flag_word (k_flags k)) ++ le_enc 4 (k_crc k)).
    split; [rewrite <- !app_assoc; reflexivity|rewrite !lenN_app, !le_enc_len; reflexivity]. }
  destruct E as (h & -> & L). rewrite <- app_assoc, dropN_app by auto. now rewrite read_exact_app.
Qed.

(** ** Sub-blocks *)
Definition pad (d : bytes) : bytes := if odd_len d then [0] else [].
Definition meta_next (fuel : nat) (strict odd : bool) (p : wv_props) (rest : bytes) (size : N) : wv_props * option wv_error :=
  if lenN rest <? size then (p, Some WMeta) else
  let rest := dropN size rest in
  if odd then match rest with [] => (p, Some WIo) | _ :: rest => wv_meta fuel strict rest p end else wv_meta fuel strict rest p.
Definition meta_mask (fuel : nat) (strict odd : bool) (n : N) (p : wv_props) (c : N) (rest : bytes) (left : N) : wv_props * option wv_error :=
  match read_exact n rest with None => (p, Some WIo) | Some (b, rest) => meta_next fuel strict odd (with_channels p c (le_dec b)) rest left end.
Definition meta_body (fuel : nat) (strict : bool) (kind : N) (odd : bool) (size : N) (r2 : bytes) (p : wv_props) : wv_props * option wv_error :=
  let next := meta_next fuel strict odd in
  if kind =? 0x27 then
    if size <? 3 then (p, Some WMeta) else
    match read_exact 3 r2 with None => (p, Some WIo) | Some (b, rest) => next (with_rate p (le_dec b)) rest (size - 3) end
  else if kind =? 0xE then
    if size <=? 1 then (p, Some WMeta) else
    match r2 with
    | [] => (p, Some WIo)
    | m :: rest =>
        if 30 <? m then (if strict then (p, Some WMeta) else (p, None)) else next (with_rate p (wp_rate p * 2 ^ m mod 2 ^ 32)) rest (size - 1)
    end
  else if kind =? 0xD then
    if size <=? 1 then (p, Some WMeta) else
    match r2 with
    | [] => (p, Some WIo)
    | c :: rest =>
        let mask := meta_mask fuel strict odd in
        let p1 := with_channels p c (wp_mask p) in
        if size =? 2 then mask 1 p1 c rest (size - 1)
        else if size =? 3 then mask 2 p1 c rest (size - 2)
        else if size =? 4 then mask 3 p1 c rest (size - 3)
        else if size =? 5 then mask 4 p1 c rest (size - 4)
        else if (size =? 6) || (size =? 7) then
          match rest with
          | [] => (p1, Some WIo)
          | h :: rest =>
              let c := N.lor c (N.shiftl (N.land h 0xF) 8) + 1 in
              if size =? 6 then mask 3 (with_channels p c (wp_mask p)) c rest (size - 4)
              else mask 4 (with_channels p c (wp_mask p)) c rest (size - 5)
          end
        else (p1, Some WMeta)
    end
  else next p r2 size.
Lemma words_full : forall d, 2 * words d = lenN d + (if odd_len d then 1 else 0).
Proof.
  intros d. unfold words, odd_len. pose proof (N.div_mod (lenN d) 2 ltac:(discriminate)) as D. pose proof (N.mod_lt (lenN d) 2 ltac:(discriminate)) as M.
  pose proof (N.div_mod (lenN d + 1) 2 ltac:(discriminate)) as D1. pose proof (N.mod_lt (lenN d + 1) 2 ltac:(discriminate)) as M1. destruct (N.eqb_spec (lenN d mod 2) 1); lia.
Qed.
Lemma id_fields : forall id o l, id < 64 -> let w := id + (if o : bool then 64 else 0) + (if l : bool then 128 else 0) in N.testbit w 7 = l /\ N.testbit w 6 = o /\ N.land w 0x3F = id.
Proof.
  intros id o l I w. repeat split.
  - apply (bit_field w 7 0 l (id + (if o then 64 else 0))). { unfold w. destruct l; cbn [bitv]; lia. } destruct o; lia.
  - apply (bit_field w 6 (if l then 1 else 0) o id). { unfold w. destruct o, l; cbn [bitv]; lia. } exact I.
  - rewrite <- (N.shiftr_0_r w). apply (field w 0 6 ((if o then 1 else 0) + (if l then 2 else 0)) id 0). { unfold w. destruct o, l; lia. } exact I. reflexivity.
Qed.
Lemma sub_open : forall fuel strict id d rest p, sub_ok (id, d) -> d <> [] ->
  wv_meta (S fuel) strict (sub_bytes (id, d) ++ rest) p = meta_body fuel strict id (odd_len d) (lenN d) (d ++ pad d ++ rest) p.
Proof.
  intros fuel strict id d rest p (I & L & _) NE. cbn [fst snd] in *. pose proof (words_full d) as W. unfold sub_bytes. assert (P0 : 0 < lenN d) by (destruct d; [contradiction|rewrite lenN_cons; lia]).
  assert (LR : lenN (d ++ pad d ++ rest) = 2 * words d + lenN rest). { rewrite !lenN_app. unfold pad. destruct (odd_len d); rewrite ?lenN_cons, lenN_nil; lia. }
  assert (G : forall idb full, N.testbit idb 6 = odd_len d -> N.land idb 63 = id -> full = 2 * words d ->
    (if full =? 0 then wv_meta fuel strict (d ++ pad d ++ rest) p else if lenN (d ++ pad d ++ rest) <? full then (p, Some WMeta) else
     meta_body fuel strict (N.land idb 63) (N.testbit idb 6) (if N.testbit idb 6 then full - 1 else full) (d ++ pad d ++ rest) p) = meta_body fuel strict id (odd_len d) (lenN d) (d ++ pad d ++ rest) p).
  { intros idb full -> -> ->. destruct (N.eqb_spec (2 * words d) 0) as [Z|Z]; [destruct (odd_len d); lia|]. rewrite LR. destruct (N.ltb_spec (2 * words d + lenN rest) (2 * words d)); [lia|].
    f_equal. destruct (odd_len d); lia. }
  destruct (N.ltb_spec (words d) 256) as [S|S].
  - pose proof (id_fields id (odd_len d) false I) as (F7 & F6 & FK). cbv iota in F7, F6, FK. rewrite N.add_0_r in F7, F6, FK. rewrite <- !app_assoc. fold (pad d). cbn [app]. cbn [wv_meta]. rewrite F7. apply G; auto.
  - pose proof (id_fields id (odd_len d) true I) as (F7 & F6 & FK). cbv iota in F7, F6, FK. rewrite <- !app_assoc. fold (pad d). cbn [app]. cbn [wv_meta]. rewrite F7.
    assert (F : 2 * (words d mod 256) + 2 ^ 9 * (words d / 256 mod 256) + 2 ^ 17 * (words d / 65536) = 2 * words d).
    { pose proof (N.div_mod (words d) 256 ltac:(discriminate)). pose proof (N.div_mod (words d / 256) 256 ltac:(discriminate)). rewrite N.div_div in H0 by discriminate. change (256 * 256) with 65536 in H0. lia. }
    apply G; auto.
Qed.
Lemma next_ok : forall fuel strict d p left rest n, n = lenN left -> meta_next fuel strict (odd_len d) p (left ++ pad d ++ rest) n = wv_meta fuel strict rest p.
Proof.
  intros fuel strict d p left rest n ->. unfold meta_next. rewrite lenN_app. destruct (N.ltb_spec (lenN left + lenN (pad d ++ rest)) (lenN left)); [lia|]. rewrite dropN_app by reflexivity. unfold pad. now destruct (odd_len d).
Qed.
Lemma sub_empty : forall fuel strict id rest p, id < 64 -> wv_meta (S fuel) strict (sub_bytes (id, []) ++ rest) p = wv_meta fuel strict rest p.
Proof.
  intros. pose proof (id_fields id false false H) as (F7 & _ & _). cbv iota in F7. rewrite !N.add_0_r in F7. unfold sub_bytes. change (words []) with 0. change (odd_len []) with false. cbn [app N.ltb]. change (0 <? 256) with true. cbv iota. cbn [app]. rewrite N.add_0_r. cbn [wv_meta]. rewrite F7. reflexivity.
Qed.
Lemma sub_other : forall fuel strict s rest p, other_sub s -> wv_meta (S fuel) strict (sub_bytes s ++ rest) p = wv_meta fuel strict rest p.
Proof.
  intros fuel strict [id d] rest p (OK & A & B & C). cbn [fst] in *. destruct d as [|x d]; [now apply sub_empty, OK|]. rewrite sub_open by (auto; discriminate). unfold meta_body.
  destruct (N.eqb_spec id 0x27); [contradiction|]. destruct (N.eqb_spec id 0xE); [contradiction|]. destruct (N.eqb_spec id 0xD); [contradiction|]. now apply next_ok.
Qed.
Lemma sub_rate : forall fuel strict r rest p, r < 2 ^ 24 -> wv_meta (S fuel) strict (sub_bytes (39, le_enc 3 r) ++ rest) p = wv_meta fuel strict rest (with_rate p r).
Proof.
  intros fuel strict r rest p R. assert (O : sub_ok (39, le_enc 3 r)) by exact (conj (eq_refl : 39 < 64) (conj (eq_refl : 3 < 2 ^ 24) (le_enc_ok 3 r))). rewrite sub_open by (auto; discriminate). unfold meta_body. rewrite le_enc_len. cbn [N.eqb]. change (N.of_nat 3 <? 3) with false. change (39 =? 0x27) with true. cbv iota.
  rewrite read_exact_app by apply le_enc_len. rewrite le_dec_enc by exact R. change (N.of_nat 3 - 3) with 0. exact (next_ok fuel strict (le_enc 3 r) (with_rate p r) [] rest 0 eq_refl).
Qed.
Lemma sub_dsd : forall fuel strict m d rest p, sub_ok (14, m :: d) -> d <> [] -> m <= 30 -> wv_meta (S fuel) strict (sub_bytes (14, m :: d) ++ rest) p = wv_meta fuel strict rest (with_rate p (wp_rate p * 2 ^ m mod 2 ^ 32)).
Proof.
  intros fuel strict m d rest p OK NE M. rewrite sub_open by (auto; discriminate). unfold meta_body. change (14 =? 0x27) with false. change (14 =? 0xE) with true. cbv iota. assert (0 < lenN d) by (destruct d; [contradiction|rewrite lenN_cons; lia]).
  rewrite lenN_cons. destruct (N.leb_spec (1 + lenN d) 1); [lia|]. cbn [app]. destruct (N.ltb_spec 30 m); [lia|]. apply next_ok. lia.
Qed.
Lemma subs_other : forall l strict fuel rest p, Forall other_sub l -> wv_meta (length l + fuel) strict (flat_map sub_bytes l ++ rest) p = wv_meta fuel strict rest p.
Proof.
  induction l as [|s l IH]; intros strict fuel rest p F; [reflexivity|]. apply Forall_cons_iff in F as [O F]. cbn [length flat_map Nat.add]. rewrite <- app_assoc, sub_other by auto. now apply IH.
Qed.
Lemma sub_len : forall s, (2 <= length (sub_bytes s))%nat.
Proof. intros [id d]. unfold sub_bytes. rewrite app_length. destruct (_ <? 256); cbn [length]; lia. Qed.
Lemma subs_len : forall l, (length l <= length (flat_map sub_bytes l))%nat.
Proof. induction l as [|s l IH]; cbn [flat_map length]; [lia|]. rewrite app_length. pose proof (sub_len s). lia. Qed.
Lemma meta_nil : forall fuel strict p, wv_meta (S fuel) strict [] p = (p, None). Proof. reflexivity. Qed.
Definition apply_rate (c m : option N) (base : N) : N := let r := match c with Some r => r | None => base end in match m with Some m => r * 2 ^ m mod 2 ^ 32 | None => r end.
Lemma meta_rates : forall c m subs strict fuel p, custom_rate c m subs -> (match m with Some m => m <= 30 | None => True end) -> (length (flat_map sub_bytes subs) < fuel)%nat ->
  wv_meta fuel strict (flat_map sub_bytes subs) p = (with_rate p (apply_rate c m (wp_rate p)), None).
Proof.
  intros c m subs strict fuel p C M F. pose proof (subs_len subs) as SL. destruct C as [a r b A B R|a m d b A B O NE|a r b m d cs A B D R O NE]; rewrite !app_length in SL; cbn [length] in SL; rewrite ?app_length in SL; cbn [length] in SL.
  - rewrite flat_map_app. cbn [flat_map]. replace fuel with (length a + S (length b + S (fuel - length a - length b - 2)))%nat by lia. rewrite subs_other by auto. rewrite sub_rate by auto.
    rewrite <- (app_nil_r (flat_map sub_bytes b)), subs_other by auto. reflexivity.
  - rewrite flat_map_app. cbn [flat_map]. replace fuel with (length a + S (length b + S (fuel - length a - length b - 2)))%nat by lia. rewrite subs_other by auto. rewrite sub_dsd by auto.
    rewrite <- (app_nil_r (flat_map sub_bytes b)), subs_other by auto. reflexivity.
  - rewrite flat_map_app. cbn [flat_map]. rewrite flat_map_app. cbn [flat_map]. replace fuel with (length a + S (length b + S (length cs + S (fuel - length a - length b - length cs - 3))))%nat by lia. rewrite subs_other by auto. rewrite sub_rate by auto.
    rewrite subs_other by auto. rewrite sub_dsd by auto. rewrite <- (app_nil_r (flat_map sub_bytes cs)), subs_other by auto. reflexivity.
Qed.
