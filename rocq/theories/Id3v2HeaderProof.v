From Verif Require Import BaseLemmas StrLemmas SynchProof TimestampProof TextProof Id3v2HeaderModel.

(** Restrictions *)
Definition restr_eqb (a b : restrictions) : bool := restr_as_byte a =? restr_as_byte b.
Lemma restr_byte : forall b, b < 256 -> restr_as_byte (restr_from_byte b) = b.
Proof.
  assert (A : allN 256 0 (fun b => restr_as_byte (restr_from_byte b) =? b) = true) by (vm_compute; reflexivity).
  intros. apply N.eqb_eq. apply (allN_spec _ _ _ A). cbn. lia.
Qed.
Lemma byte_restr : forall r, restr_from_byte (restr_as_byte r) = r /\ restr_as_byte r < 256.
Proof.
  intros [s te ts ie is]. destruct s, te, ts as [[]|], ie, is as [[]|]; vm_compute; auto.
Qed.

Definition hdr_bytes (major minor flags n : N) : bytes := $"ID3" ++ [major; minor; flags] ++ be_enc 4 n.

Lemma parse_hdr : forall major minor flags n rest, n < 2 ^ 32 ->
  header_parse (hdr_bytes major minor flags n ++ rest) =
  match (if major =? 2 then Some V2 else if major =? 3 then Some V3 else if major =? 4 then Some V4 else None) with
  | None => (Err (HBadVersion major minor), rest)
  | Some v =>
      if is_v2 v && flag flags 0x40 then (Err HV2Compression, rest) else
      let f := mkTFlags (flag flags 0x80) (negb (is_v2 v) && flag flags 0x20) (negb (is_v2 v) && flag flags 0x10) false None in
      let size := unsynch32 n in
      match header_ext v f (negb (is_v2 v) && flag flags 0x40) rest with
          | (Ok (e, f), r) =>
              if (0 <? e) && (size <=? e) then (Err HBadExtendedSize, r) else (Ok (mkHdr v f size e), r)
          | (Err x, r) => (Err x, r)
          | (Panic, r) => (Panic, r)
          end
  end.
Proof.
  intros. unfold header_parse. rewrite read_exact_app by (unfold hdr_bytes; rewrite !lenN_app, be_enc_len; reflexivity).
  assert (D : be_dec (dropN 6 (hdr_bytes major minor flags n)) = n).
  { unfold hdr_bytes. rewrite app_assoc. rewrite dropN_app by reflexivity. rewrite be_dec_enc; auto. }
  rewrite D. unfold hdr_bytes at 1. rewrite takeN_app by reflexivity.
  change (negb (list_eqb $"ID3" $"ID3")) with false. cbn iota. reflexivity.
Qed.

Lemma unsynch32_bound : forall u, unsynch32 u < 2 ^ 28.
Proof.
  intros. unfold unsynch32.
  change 0x7F000000 with (N.shiftl (N.ones 7) 24). change 0x7F0000 with (N.shiftl (N.ones 7) 16).
  change 0x7F00 with (N.shiftl (N.ones 7) 8). change 0x7F with (N.ones 7).
  rewrite !land_mask_shift, land_ones_mod, !N.shiftr_div_pow2.
  assert (E1 : (u / 2 ^ 24) mod 2 ^ 7 * 2 ^ 24 / 2 ^ 3 = (u / 2 ^ 24) mod 2 ^ 7 * 2 ^ 21).
  { replace (2 ^ 24) with (2 ^ 21 * 2 ^ 3) at 2 by reflexivity. rewrite N.mul_assoc, N.div_mul by discriminate. reflexivity. }
  assert (E2 : (u / 2 ^ 16) mod 2 ^ 7 * 2 ^ 16 / 2 ^ 2 = (u / 2 ^ 16) mod 2 ^ 7 * 2 ^ 14).
  { replace (2 ^ 16) with (2 ^ 14 * 2 ^ 2) at 2 by reflexivity. rewrite N.mul_assoc, N.div_mul by discriminate. reflexivity. }
  assert (E3 : (u / 2 ^ 8) mod 2 ^ 7 * 2 ^ 8 / 2 ^ 1 = (u / 2 ^ 8) mod 2 ^ 7 * 2 ^ 7).
  { replace (2 ^ 8) with (2 ^ 7 * 2 ^ 1) at 2 by reflexivity. rewrite N.mul_assoc, N.div_mul by discriminate. reflexivity. }
  rewrite E1, E2, E3.
  assert (M : forall x, x mod 2 ^ 7 < 128) by (intros; change (2 ^ 7) with 128; lia).
  pose proof (M (u / 2 ^ 24)). pose proof (M (u / 2 ^ 16)). pose proof (M (u / 2 ^ 8)). pose proof (M u).
  remember ((u / 2 ^ 24) mod 2 ^ 7) as a. remember ((u / 2 ^ 16) mod 2 ^ 7) as b. remember ((u / 2 ^ 8) mod 2 ^ 7) as c. remember (u mod 2 ^ 7) as d.
  assert (L1 : N.lor (a * 2 ^ 21) (b * 2 ^ 14) = b * 2 ^ 14 + a * 2 ^ 21).
  { rewrite N.lor_comm. apply lor_add. change (2^14) with 16384. change (2^21) with 2097152. lia. }
  rewrite L1.
  assert (L2 : N.lor (b * 2 ^ 14 + a * 2 ^ 21) (c * 2 ^ 7) = c * 2 ^ 7 + (b + a * 2 ^ 7) * 2 ^ 14).
  { rewrite N.lor_comm. replace (b * 2 ^ 14 + a * 2 ^ 21) with ((b + a * 2 ^ 7) * 2 ^ 14) by (change (2^21) with (2^7 * 2^14); lia).
    apply lor_add. change (2^14) with 16384. change (2^7) with 128. lia. }
  rewrite L2.
  assert (L3 : N.lor (c * 2 ^ 7 + (b + a * 2 ^ 7) * 2 ^ 14) d = d + (c + (b + a * 2 ^ 7) * 2 ^ 7) * 2 ^ 7).
  { rewrite N.lor_comm. replace (c * 2 ^ 7 + (b + a * 2 ^ 7) * 2 ^ 14) with ((c + (b + a * 2 ^ 7) * 2 ^ 7) * 2 ^ 7) by (change (2^14) with (2^7 * 2^7); lia).
    apply lor_add. change (2^7) with 128. lia. }
  rewrite L3. change (2 ^ 7) with 128. change (2 ^ 28) with 268435456. lia.
Qed.

Lemma ext_total : forall r f h, fst (read_extended_header r f h) <> Panic /\
  (forall f', fst (read_extended_header r f h) = Ok f' -> tf_footer f' = tf_footer f).
Proof.
  intros. unfold read_extended_header. destruct (h <? 6). { cbn. split; congruence. }
  destruct r as [|a r]; cbn [read_u8]; [split; cbn; congruence|].
  destruct r as [|ext r]; cbn [read_u8]; [split; cbn; congruence|].
  destruct (flag ext 0x20).
  - destruct (read_exact 6 r) as [[? r']|]; [|split; cbn; congruence].
    destruct (flag ext 0x10); [|split; cbn; [congruence|intros f' E; injection E as <-; reflexivity]].
    destruct r' as [|? r']; cbn [read_u8]; [split; cbn; congruence|]. destruct r' as [|? r']; cbn [read_u8]; [split; cbn; congruence|].
    cbn. split; [congruence|intros f' E; injection E as <-; reflexivity].
  - destruct (flag ext 0x10); [|split; cbn; [congruence|intros f' E; injection E as <-; reflexivity]].
    destruct r as [|? r']; cbn [read_u8]; [split; cbn; congruence|]. destruct r' as [|? r']; cbn [read_u8]; [split; cbn; congruence|].
    cbn. split; [congruence|intros f' E; injection E as <-; reflexivity].
Qed.

Lemma header_ext_total : forall v f p r, fst (header_ext v f p r) <> Panic /\
  (forall e f', fst (header_ext v f p r) = Ok (e, f') -> tf_footer f' = tf_footer f).
Proof.
  intros v f p r. unfold header_ext. destruct p; [|split; cbn; [congruence|intros e f' E; injection E as <- <-; reflexivity]].
  assert (X : forall r e (k : bytes -> bytes),
    let x := (match read_extended_header r f e with (Ok f, r) => (Ok (e, f), k r) | (Err x, r) => (Err x, k r) | (Panic, r) => (Panic, k r) end : res hdr_error (N * tag_flags) * bytes) in
    fst x <> Panic /\ (forall e f', fst x = Ok (e, f') -> tf_footer f' = tf_footer f)).
  { intros r0 e0 k. pose proof (ext_total r0 f e0) as [N0 N1]. destruct (read_extended_header r0 f e0) as [[]]; cbn in *; split; try congruence.
    intros e f' E. injection E as _ <-. now apply N1. }
  destruct v.
  - destruct (tf_unsync f); destruct (read_be 4 _) as [[? ?]|]; try (cbn; split; congruence); [apply (X _ _ (fun _ => dropN BUF_SIZE r))|apply (X _ _ (fun r => r))].
  - destruct (tf_unsync f); destruct (read_be 4 _) as [[? ?]|]; try (cbn; split; congruence); [apply (X _ _ (fun _ => dropN BUF_SIZE r))|apply (X _ _ (fun r => r))].
  - destruct (read_be 4 r) as [[? ?]|]; try (cbn; split; congruence). apply (X _ _ (fun r => r)).
Qed.

Lemma header_total : forall r,
  match fst (header_parse r) with
  | Ok h => h_size h < 2 ^ 28 /\ (h_ext_size h = 0 \/ h_ext_size h < h_size h)
  | Err _ => True
  | Panic => False
  end.
Proof.
  intros. unfold header_parse. destruct (read_exact 10 r) as [[h r1]|]; cbn [fst]; auto.
  destruct (negb _); cbn [fst]; auto.
  destruct (if _ =? 2 then _ else _) as [v|]; cbn [fst]; auto.
  destruct (is_v2 v && _); cbn [fst]; auto. cbn zeta.
  match goal with |- context [header_ext ?v ?f ?p ?r] => pose proof (proj1 (header_ext_total v f p r)) as NP; destruct (header_ext v f p r) as [[[e f']| |] r2] end; cbn [fst] in *; auto.
  destruct ((0 <? e) && (unsynch32 (be_dec (dropN 6 h)) <=? e)) eqn:E; cbn [fst]; auto.
  cbn [h_size h_ext_size]. split. apply unsynch32_bound. lia.
Qed.

(** junk search *)
Lemma junk_scan_spec : forall w a b i, (a <> 0 -> 2 <= i) -> (b <> 0 -> 1 <= i) ->
  match junk_scan w a b i with
  | Ok (Some (off, rest)) => exists pre, a :: b :: w = pre ++ $"ID3" ++ rest /\ off + 2 = i + lenN pre /\
      (forall p q, a :: b :: w = p ++ $"ID3" ++ q -> lenN pre <= lenN p)
  | Ok None => forall p q, a :: b :: w <> p ++ $"ID3" ++ q
  | Err _ => False
  | Panic => False
  end.
Proof.
  induction w as [|c w IH]; intros a b i Ha Hb; cbn [junk_scan].
  - intros p q E. apply (f_equal (@length N)) in E. rewrite app_length in E. cbn in E. lia.
  - destruct ((a =? 73) && (b =? 68) && (c =? 51)) eqn:E.
    + apply andb_prop in E as [E E3]. apply andb_prop in E as [E1 E2]. apply N.eqb_eq in E1, E2, E3. subst.
      replace (i <? 2) with false by lia. exists []. change (lenN (@nil N)) with 0. repeat split; auto; intros; lia.
    + assert (Hb' : b <> 0 -> 2 <= i + 1) by lia. specialize (IH b c (i + 1) Hb' ltac:(lia)).
      destruct (junk_scan w b c (i + 1)) as [[[off rest]|]| |]; auto.
      * destruct IH as (pre & P1 & P2 & P3). exists (a :: pre). repeat split.
        -- cbn [app]. now rewrite P1.
        -- rewrite lenN_cons. lia.
        -- intros p q Q. destruct p as [|x p].
           ++ exfalso. cbn in Q. injection Q as -> -> -> ->. discriminate.
           ++ injection Q as -> Q. rewrite !lenN_cons. specialize (P3 p q Q). lia.
      * intros p q Q. destruct p as [|x p].
        -- cbn in Q. injection Q as -> -> -> ->. discriminate.
        -- injection Q as -> Q. now apply (IH p q).
Qed.

Lemma find_prefix_zero : forall w p q, 0 :: 0 :: w = p ++ $"ID3" ++ q -> exists p', p = 0 :: 0 :: p' /\ w = p' ++ $"ID3" ++ q.
Proof.
  intros. destruct p as [|x [|y p]].
  - discriminate.
  - discriminate.
  - injection H as <- <- ->. eauto.
Qed.

Lemma junk_spec : forall w,
  match find_id3v2_in_junk w with
  | Ok (Some (off, rest)) => exists pre, w = pre ++ $"ID3" ++ rest /\ off = lenN pre /\
      (forall p q, w = p ++ $"ID3" ++ q -> lenN pre <= lenN p)
  | Ok None => forall p q, w <> p ++ $"ID3" ++ q
  | Err _ => False
  | Panic => False
  end.
Proof.
  intros. unfold find_id3v2_in_junk. pose proof (junk_scan_spec w 0 0 0 ltac:(congruence) ltac:(congruence)) as J.
  destruct (junk_scan w 0 0 0) as [[[off rest]|]| |]; auto.
  - destruct J as (pre & J1 & J2 & J3). apply find_prefix_zero in J1 as (p' & -> & ->).
    exists p'. rewrite !lenN_cons in J2. repeat split. lia.
    intros p q Q. specialize (J3 (0 :: 0 :: p) q). rewrite !lenN_cons in J3. cbn [app] in J3. rewrite Q in J3. specialize (J3 eq_refl). lia.
  - intros p q Q. apply (J (0 :: 0 :: p) q). cbn [app]. now rewrite Q.
Qed.
