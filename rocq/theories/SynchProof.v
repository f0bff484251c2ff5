From Verif Require Import BaseLemmas SynchModel SynchSpec.

Lemma mask7 : forall n, N.land n 127 = n mod 128.
Proof. intros; exact (land_ones_mod n 7). Qed.
Lemma maskS : forall n k s m, m = N.shiftl (N.ones k) s -> N.land n m = ((n / 2 ^ s) mod 2 ^ k) * 2 ^ s.
Proof. intros; subst; apply land_mask_shift. Qed.

Ltac masks :=
  rewrite ?mask7;
  repeat match goal with
  | |- context [N.land ?n 128] => rewrite (maskS n 1 7 128 eq_refl)
  | |- context [N.land ?n (shl 16 127 7)] => rewrite (maskS n 7 7 (shl 16 127 7) eq_refl)
  | |- context [N.land ?n (shl 16 3 14)] => rewrite (maskS n 2 14 (shl 16 3 14) eq_refl)
  | |- context [N.land ?n (shl 32 127 7)] => rewrite (maskS n 7 7 (shl 32 127 7) eq_refl)
  | |- context [N.land ?n (shl 32 127 14)] => rewrite (maskS n 7 14 (shl 32 127 14) eq_refl)
  | |- context [N.land ?n (shl 32 127 21)] => rewrite (maskS n 7 21 (shl 32 127 21) eq_refl)
  | |- context [N.land ?n (shl 32 15 28)] => rewrite (maskS n 4 28 (shl 32 15 28) eq_refl)
  | |- context [N.land ?n 32512] => rewrite (maskS n 7 8 32512 eq_refl)
  | |- context [N.land ?n 8323072] => rewrite (maskS n 7 16 8323072 eq_refl)
  | |- context [N.land ?n 2130706432] => rewrite (maskS n 7 24 2130706432 eq_refl)
  end;
  unfold shl; rewrite ?N.shiftl_mul_pow2, ?N.shiftr_div_pow2.

Ltac pows := 
  repeat match goal with
  | |- context [2 ^ ?k] => is_ground k; let v := eval vm_compute in (2 ^ k) in change (2 ^ k) with v
  | H : context [2 ^ ?k] |- _ => is_ground k; let v := eval vm_compute in (2 ^ k) in change (2 ^ k) with v in H
  | |- context [256 ^ ?k] => is_ground k; let v := eval vm_compute in (256 ^ k) in change (256 ^ k) with v
  end.

(** Disjoint-or as addition, with literals. *)
Lemma lor_plus : forall a b k c, c = 2 ^ k -> a < c -> b mod c = 0 -> N.lor a b = a + b.
Proof.
  intros. subst. assert (b = (b / 2 ^ k) * 2 ^ k).
  { pose proof (N.div_mod b (2 ^ k)). assert (2 ^ k <> 0) by (apply N.pow_nonzero; lia). lia. }
  rewrite H. apply lor_add. lia.
Qed.
Lemma lor_plus' : forall a b k c, c = 2 ^ k -> b < c -> a mod c = 0 -> N.lor a b = a + b.
Proof. intros. rewrite N.lor_comm, (lor_plus b a k c); auto; lia. Qed.

(** Digits of n base 128. *)
Lemma digits128 : forall n, exists a b c d e,
  n = a + 128 * b + 16384 * c + 2097152 * d + 268435456 * e /\ a < 128 /\ b < 128 /\ c < 128 /\ d < 128.
Proof.
  intros. exists (n mod 128), (n / 128 mod 128), (n / 16384 mod 128), (n / 2097152 mod 128), (n / 268435456).
  repeat split; lia.
Qed.

Ltac divmods :=
  repeat match goal with
  | |- context [?x / ?c] => is_ground c; 
      let q := fresh "q" in
      remember (x / c) as q eqn:?E; 
      match goal with E : q = x / c |- _ => 
        let H := fresh "Hq" in assert (H : c * q <= x /\ x < c * q + c) by (subst q; pose proof (N.div_mod x c); pose proof (N.mod_lt x c); lia); clear E end
  end.

Lemma synch32_body : forall a b c d, a < 128 -> b < 128 -> c < 128 -> d < 128 ->
  synch32 (a + 128 * b + 16384 * c + 2097152 * d) = Ok (a + 256 * b + 65536 * c + 16777216 * d).
Proof.
  intros. unfold synch32, synch_checked.
  change (max_synch 32 4) with 268435455.
  destruct (N.ltb_spec 268435455 (a + 128 * b + 16384 * c + 2097152 * d)); [lia|]. f_equal.
  set (n := a + 128 * b + 16384 * c + 2097152 * d) in *.
  masks. pows.
  assert (n mod 128 = a) by lia.
  assert ((n / 128) mod 128 = b) by lia.
  assert ((n / 16384) mod 128 = c) by lia.
  assert ((n / 2097152) mod 128 = d) by lia.
  rewrite H4, H5, H6, H7.
  replace ((b * 128 * 2) mod 4294967296) with (256 * b) by lia.
  replace ((c * 16384 * 4) mod 4294967296) with (65536 * c) by lia.
  replace ((d * 2097152 * 8) mod 4294967296) with (16777216 * d) by lia.
  rewrite (lor_plus a (256 * b) 8 256) by (try reflexivity; lia).
  rewrite (lor_plus (a + 256 * b) (65536 * c) 16 65536) by (try reflexivity; lia).
  rewrite (lor_plus _ (16777216 * d) 24 16777216) by (try reflexivity; lia).
  reflexivity.
Qed.

Lemma unsynch32_body : forall a b c d, a < 128 -> b < 128 -> c < 128 -> d < 128 ->
  unsynch32 (a + 256 * b + 65536 * c + 16777216 * d) = a + 128 * b + 16384 * c + 2097152 * d.
Proof.
  intros. unfold unsynch32.
  set (n := a + 256 * b + 65536 * c + 16777216 * d) in *.
  masks. pows.
  assert (n mod 128 = a) by lia.
  assert ((n / 256) mod 128 = b) by lia.
  assert ((n / 65536) mod 128 = c) by lia.
  assert ((n / 16777216) mod 128 = d) by lia.
  rewrite H3, H4, H5, H6.
  replace (d * 16777216 / 8) with (2097152 * d) by lia.
  replace (c * 65536 / 4) with (16384 * c) by lia.
  replace (b * 256 / 2) with (128 * b) by lia.
  rewrite (lor_plus' (2097152 * d) (16384 * c) 21 2097152) by (try reflexivity; lia).
  rewrite (lor_plus' _ (128 * b) 14 16384) by (try reflexivity; lia).
  rewrite (lor_plus' _ a 7 128) by (try reflexivity; lia).
  lia.
Qed.

Lemma be_enc_4 : forall x, be_enc 4 x = [x / 256 / 256 / 256 mod 256; x / 256 / 256 mod 256; x / 256 mod 256; x mod 256].
Proof. reflexivity. Qed.

Lemma synchsafe4 : forall a b c d, a < 128 -> b < 128 -> c < 128 -> d < 128 ->
  synchsafe 4 (a + 256 * b + 65536 * c + 16777216 * d).
Proof.
  intros. split.
  - change (256 ^ N.of_nat 4) with 4294967296. lia.
  - rewrite be_enc_4. repeat constructor; lia.
Qed.

Lemma synch32_correct : forall n, n < 2 ^ 32 ->
  (synch32 n = Err tt <-> 2 ^ 28 <= n) /\
  (n < 2 ^ 28 -> exists s, synch32 n = Ok s /\ synchsafe 4 s /\ groups7 4 s = n /\ unsynch32 s = n).
Proof.
  intros n Hn. pows. split.
  - unfold synch32, synch_checked. change (max_synch 32 4) with 268435455.
    destruct (N.ltb_spec 268435455 n); split; intros; try lia; auto; discriminate.
  - intros Hs. destruct (digits128 n) as (a & b & c & d & e & E & Ha & Hb & Hc & Hd).
    assert (e = 0) by lia. subst e. rewrite N.mul_0_r, N.add_0_r in E. subst n.
    exists (a + 256 * b + 65536 * c + 16777216 * d). repeat split.
    + now apply synch32_body.
    + now apply synchsafe4.
    + now apply synchsafe4.
    + cbn [groups7]. lia.
    + now apply unsynch32_body.
Qed.

Lemma synch16_correct : forall n, n < 2 ^ 16 ->
  (synch16 n = Err tt <-> 2 ^ 14 <= n) /\
  (n < 2 ^ 14 -> exists s, synch16 n = Ok s /\ synchsafe 2 s /\ groups7 2 s = n /\ unsynch16 s = n).
Proof.
  intros n Hn. pows. split.
  - unfold synch16, synch_checked. change (max_synch 16 2) with 16383.
    destruct (N.ltb_spec 16383 n); split; intros; try lia; auto; discriminate.
  - intros Hs. exists (n mod 128 + 256 * (n / 128)).
    assert (n / 128 < 128) by lia. 
    assert (n mod 128 < 128) by lia.
    repeat split.
    + unfold synch16, synch_checked. change (max_synch 16 2) with 16383.
      destruct (N.ltb_spec 16383 n); [lia|]. f_equal. masks. pows.
      replace ((n / 128 mod 128 * 128 * 2) mod 65536) with (256 * (n / 128)) by lia.
      apply (lor_plus _ _ 8 256); try reflexivity; lia.
    + change (256 ^ N.of_nat 2) with 65536. lia.
    + change (be_enc 2 (n mod 128 + 256 * (n / 128))) with
        [(n mod 128 + 256 * (n / 128)) / 256 mod 256; (n mod 128 + 256 * (n / 128)) mod 256].
      repeat constructor; lia.
    + cbn [groups7]. lia.
    + unfold unsynch16. set (m := n mod 128 + 256 * (n / 128)). masks. pows.
      replace (m / 256 mod 128 * 256 / 2) with (128 * (n / 128)) by lia.
      replace (m mod 128) with (n mod 128) by lia.
      rewrite (lor_plus' _ _ 7 128); try reflexivity; lia.
Qed.

Lemma synch8_correct : forall n, n < 2 ^ 8 ->
  (synch8 n = Err tt <-> 2 ^ 7 <= n) /\
  (n < 2 ^ 7 -> exists s, synch8 n = Ok s /\ synchsafe 1 s /\ groups7 1 s = n /\ unsynch8 s = n).
Proof.
  intros n Hn. pows. split.
  - unfold synch8, synch_checked. change (max_synch 8 1) with 127.
    destruct (N.ltb_spec 127 n); split; intros; try lia; auto; discriminate.
  - intros Hs. exists n. unfold synch8, synch_checked, unsynch8. change (max_synch 8 1) with 127.
    destruct (N.ltb_spec 127 n); [lia|]. masks. repeat split.
    + f_equal. lia.
    + change (256 ^ N.of_nat 1) with 256. lia.
    + change (be_enc 1 n) with [n mod 256]. repeat constructor; lia.
    + cbn [groups7]. lia.
    + lia.
Qed.

Lemma widening8_correct : forall n, n < 2 ^ 8 ->
  synchsafe 2 (widening8 n) /\ groups7 2 (widening8 n) = n /\ unsynch16 (widening8 n) = n.
Proof.
  intros n Hn. pows.
  assert (E : widening8 n = n mod 128 + 256 * (n / 128)).
  { unfold widening8. cbv zeta. rewrite N.lor_0_l. masks. pows.
    replace ((n / 128 mod 2 * 128 * 2) mod 65536) with (256 * (n / 128)) by lia.
    apply (lor_plus _ _ 8 256); try reflexivity; lia. }
  rewrite E. repeat split.
  - change (256 ^ N.of_nat 2) with 65536. lia.
  - change (be_enc 2 (n mod 128 + 256 * (n / 128))) with
        [(n mod 128 + 256 * (n / 128)) / 256 mod 256; (n mod 128 + 256 * (n / 128)) mod 256].
      repeat constructor; lia.
  - cbn [groups7]. lia.
  - unfold unsynch16. set (m := n mod 128 + 256 * (n / 128)). masks. pows.
      replace (m / 256 mod 128 * 256 / 2) with (128 * (n / 128)) by lia.
      replace (m mod 128) with (n mod 128) by lia.
      rewrite (lor_plus' _ _ 7 128); try reflexivity; lia.
Qed.

Lemma widening16_correct : forall n, n < 2 ^ 16 ->
  synchsafe 4 (widening16 n) /\ groups7 4 (widening16 n) = n /\ unsynch32 (widening16 n) = n.
Proof.
  intros n Hn. pows. destruct (digits128 n) as (a & b & c & d & e & E & Ha & Hb & Hc & Hd).
  assert (e = 0) by lia. subst e. assert (d = 0) by lia. subst d.
  assert (Hc' : c < 4) by lia.
  assert (E' : widening16 n = a + 256 * b + 65536 * c + 16777216 * 0).
  { unfold widening16. cbv zeta. rewrite N.lor_0_l. masks. pows.
    replace (n mod 128) with a by lia.
    replace ((n / 128 mod 128 * 128 * 2) mod 65536) with (256 * b) by lia.
    replace ((n / 16384 mod 4 * 16384 * 4) mod 4294967296) with (65536 * c) by lia.
    rewrite (lor_plus a (256 * b) 8 256) by (try reflexivity; lia).
    rewrite (lor_plus (a + 256 * b) (65536 * c) 16 65536) by (try reflexivity; lia). lia. }
  rewrite E'. repeat apply conj.
  - apply synchsafe4; lia.
  - apply synchsafe4; lia.
  - cbn [groups7]. lia.
  - rewrite unsynch32_body by lia. lia.
Qed.

Lemma widening32_correct : forall n, n < 2 ^ 32 ->
  synchsafe 8 (widening32 n) /\ groups7 8 (widening32 n) = n.
Proof.
  intros n Hn. pows. destruct (digits128 n) as (a & b & c & d & e & E & Ha & Hb & Hc & Hd).
  assert (He : e < 16) by lia.
  assert (E' : widening32 n = a + 256 * b + 65536 * c + 16777216 * d + 4294967296 * e).
  { unfold widening32. cbv zeta. rewrite N.lor_0_l. masks. pows.
    replace (n mod 128) with a by lia.
    replace ((n / 128 mod 128 * 128 * 2) mod 18446744073709551616) with (256 * b) by lia.
    replace ((n / 16384 mod 128 * 16384 * 4) mod 18446744073709551616) with (65536 * c) by lia.
    replace ((n / 2097152 mod 128 * 2097152 * 8) mod 18446744073709551616) with (16777216 * d) by lia.
    replace ((n / 268435456 mod 16 * 268435456 * 16) mod 18446744073709551616) with (4294967296 * e) by lia.
    rewrite (lor_plus a (256 * b) 8 256) by (try reflexivity; lia).
    rewrite (lor_plus (a + 256 * b) (65536 * c) 16 65536) by (try reflexivity; lia).
    rewrite (lor_plus _ (16777216 * d) 24 16777216) by (try reflexivity; lia).
    rewrite (lor_plus _ (4294967296 * e) 32 4294967296) by (try reflexivity; lia).
    reflexivity. }
  rewrite E'. set (x := a + 256 * b + 65536 * c + 16777216 * d + 4294967296 * e).
  assert (X0 : x mod 256 = a) by lia.
  assert (X1 : x / 256 = b + 256 * c + 65536 * d + 16777216 * e) by lia.
  repeat apply conj.
  - change (256 ^ N.of_nat 8) with 18446744073709551616. lia.
  - unfold be_enc. apply Forall_rev. cbn [le_enc]. rewrite X1.
    replace ((b + 256 * c + 65536 * d + 16777216 * e) / 256) with (c + 256 * d + 65536 * e) by lia.
    replace ((c + 256 * d + 65536 * e) / 256) with (d + 256 * e) by lia.
    replace ((d + 256 * e) / 256) with e by lia.
    replace (e / 256) with 0 by lia.
    repeat constructor; try lia; cbv; reflexivity.
  - cbn [groups7]. rewrite X1.
    replace (x mod 128) with a by lia.
    replace ((b + 256 * c + 65536 * d + 16777216 * e) / 256) with (c + 256 * d + 65536 * e) by lia.
    replace ((c + 256 * d + 65536 * e) / 256) with (d + 256 * e) by lia.
    replace ((d + 256 * e) / 256) with e by lia.
    replace (e / 256) with 0 by lia. change (0 / 256) with 0. change (0 mod 128) with 0. lia.
Qed.

(** ** The stream *)

(** What is left to be delivered. *)
Definition ev_bytes (e : event) : bytes := match e with EvData c => c | EvIntr => [] end.
Definition pending (s : ustream) : bytes := us_avail s ++ flat_map ev_bytes (us_inner s).
Definition deliver (ff : bool) (l : bytes) : bytes :=
  match l with
  | z :: l' => if ff && (z =? 0) then resynchronise l' else resynchronise l
  | [] => []
  end.
Definition nonempty_ev (e : event) : Prop := match e with EvData c => c <> [] | EvIntr => False end.

Lemma resync_cons : forall b l, resynchronise (b :: l) = b :: deliver (b =? 255) l.
Proof.
  intros. destruct l; cbn [resynchronise deliver]; [reflexivity|].
  destruct (b =? 255); cbn [andb]; auto. destruct (n =? 0); auto.
Qed.

Lemma deliver_cons : forall ff b l, ff && (b =? 0) = false ->
  deliver ff (b :: l) = b :: deliver (b =? 255) l.
Proof. intros. unfold deliver at 1. rewrite H. apply resync_cons. Qed.
Lemma deliver_skip : forall ff b l, ff && (b =? 0) = true -> deliver ff (b :: l) = deliver false l.
Proof. intros. unfold deliver at 1. rewrite H. destruct l; reflexivity. Qed.
Lemma deliver_len : forall ff l, (length (deliver ff l) <= length l)%nat.
Proof.
  intros. revert ff. induction l; intros; [reflexivity|]. destruct (ff && (a =? 0)) eqn:E.
  - rewrite deliver_skip by auto. specialize (IHl false). cbn [length]. lia.
  - rewrite deliver_cons by auto. cbn [length]. specialize (IHl (a =? 255)). lia.
Qed.

Lemma flat_len : forall evs,
  fold_right (fun e n => event_len e + n)%nat 0%nat evs = length (flat_map ev_bytes evs).
Proof. induction evs; cbn; auto. rewrite app_length, IHevs. destruct a; reflexivity. Qed.

Lemma us_fuel_eq : forall s, us_fuel s = S (length (pending s)).
Proof. intros; unfold us_fuel, pending. rewrite app_length, flat_len. reflexivity. Qed.

Lemma dropN_nonempty : forall A n (l : list A), n < lenN l -> dropN n l <> [].
Proof. intros A n l H E. assert (lenN (dropN n l) = 0) by now rewrite E. rewrite lenN_dropN in H0. lia. Qed.

(** A refill yields at least one byte unless everything is delivered. *)
Lemma inner_read_ok : forall evs, Forall nonempty_ev evs ->
  exists c evs', inner_read evs = (Ok c, evs') /\ Forall nonempty_ev evs' /\
    flat_map ev_bytes evs = c ++ flat_map ev_bytes evs' /\ (c = [] -> flat_map ev_bytes evs = []).
Proof.
  intros. destruct evs as [|[c|] evs]; cbn [inner_read].
  - exists [], []. repeat split; auto.
  - inversion H; subst. destruct (N.leb_spec (lenN c) BUF_SIZE).
    + exists c, evs. repeat split; auto. intros. subst. exfalso. now apply H2.
    + exists (takeN BUF_SIZE c), (EvData (dropN BUF_SIZE c) :: evs). repeat split.
      * constructor; auto. cbn. now apply dropN_nonempty.
      * cbn [flat_map ev_bytes]. rewrite app_assoc, takeN_dropN. reflexivity.
      * intros. assert (lenN (takeN BUF_SIZE c) = 0) by now rewrite H1.
        rewrite lenN_takeN in H4. unfold BUF_SIZE in *. lia.
  - inversion H; subst. cbn in H2. tauto.
Qed.

Lemma us_loop_spec : forall fuel want acc s,
  Forall nonempty_ev (us_inner s) -> (length (pending s) < fuel)%nat ->
  exists s', us_loop fuel want acc s = (Ok (rev acc ++ takeN want (deliver (us_ff s) (pending s))), s') /\
    Forall nonempty_ev (us_inner s') /\
    deliver (us_ff s') (pending s') = dropN want (deliver (us_ff s) (pending s)).
Proof.
  induction fuel; intros want acc s Hne Hf; [lia|]. cbn [us_loop].
  destruct (N.eqb_spec want 0).
  { subst. exists s. rewrite takeN_0, dropN_0, app_nil_r. auto. }
  assert (R : exists s1, match us_avail s with
          | [] => match inner_read (us_inner s) with
                  | (Ok c, evs) => (Ok tt, mkU c (us_ff s) evs)
                  | (_, evs) => (Err tt, mkU [] (us_ff s) evs)
                  end
          | _ => (Ok tt, s)
          end = (Ok (E:=unit) tt, s1) /\ us_ff s1 = us_ff s /\ pending s1 = pending s /\ Forall nonempty_ev (us_inner s1)
          /\ (us_avail s1 = [] -> pending s = [])).
  { destruct (us_avail s) eqn:Ea.
    - destruct (inner_read_ok _ Hne) as (c & evs' & E1 & E2 & E3 & E4). rewrite E1.
      eexists; split; [reflexivity|]. unfold pending; cbn. rewrite Ea, E3. repeat split; auto.
      intros. cbn. rewrite <- E3. auto.
    - eexists; split; [reflexivity|]. repeat split; auto. congruence. }
  destruct R as (s1 & -> & Eff & Ep & Hne1 & Hemp).
  destruct (us_avail s1) as [|b rest] eqn:Ea.
  { exists s1. rewrite Hemp by auto. rewrite Eff, Ep, Hemp by auto. unfold takeN, dropN; cbn [deliver].
    rewrite firstn_nil, skipn_nil, app_nil_r. auto. }
  assert (Epb : pending s = b :: (rest ++ flat_map ev_bytes (us_inner s1))).
  { rewrite <- Ep. unfold pending. rewrite Ea. reflexivity. }
  rewrite Epb in *. rewrite Eff.
  destruct (us_ff s && (b =? 0)) eqn:Esk.
  - rewrite deliver_skip by auto.
    destruct (IHfuel want acc (mkU rest false (us_inner s1))) as (s' & E1 & E2 & E3); auto.
    { unfold pending; cbn [us_avail us_inner] in *. cbn [length] in Hf. lia. }
    exists s'. auto.
  - rewrite deliver_cons by auto.
    destruct (IHfuel (want - 1) (b :: acc) (mkU rest (b =? 255) (us_inner s1))) as (s' & E1 & E2 & E3); auto.
    { unfold pending; cbn [us_avail us_inner] in *. cbn [length] in Hf. lia. }
    exists s'. split; [|split]; auto.
    + rewrite E1. unfold pending; cbn [us_avail us_inner us_ff rev]. rewrite <- app_assoc. do 3 f_equal.
      unfold takeN. replace (N.to_nat want) with (S (N.to_nat (want - 1))) by lia. reflexivity.
    + rewrite E3. unfold pending; cbn [us_avail us_inner us_ff].
      unfold dropN. replace (N.to_nat want) with (S (N.to_nat (want - 1))) by lia. reflexivity.
Qed.

Lemma us_read_spec : forall want s,
  Forall nonempty_ev (us_inner s) ->
  exists s', us_read want s = (Ok (takeN want (deliver (us_ff s) (pending s))), s') /\
    Forall nonempty_ev (us_inner s') /\
    deliver (us_ff s') (pending s') = dropN want (deliver (us_ff s) (pending s)).
Proof.
  intros. unfold us_read. destruct (N.eqb_spec want 0).
  - subst. exists s. rewrite takeN_0, dropN_0. auto.
  - destruct (us_loop_spec (us_fuel s) want [] s) as (s' & E1 & E2 & E3); auto.
    { rewrite us_fuel_eq; lia. }
    exists s'. auto.
Qed.

Lemma us_run_spec : forall sched s, Forall nonempty_ev (us_inner s) ->
  us_run sched s = Ok (cut sched (deliver (us_ff s) (pending s))).
Proof.
  induction sched; intros; cbn [us_run cut]; auto.
  destruct (us_read_spec a s H) as (s' & E1 & E2 & E3).
  assert (us_retry (length (us_inner s)) a s = (Ok (takeN a (deliver (us_ff s) (pending s))), s')).
  { destruct (length (us_inner s)); cbn [us_retry]; now rewrite E1. }
  rewrite H0, IHsched by auto. now rewrite E3.
Qed.

Lemma cut_concat : forall sizes l, concat (cut sizes l) = takeN (sumN sizes) l.
Proof.
  induction sizes; intros; cbn [cut concat sumN]; [now rewrite takeN_0|].
  rewrite IHsizes. unfold takeN, dropN.
  rewrite N2Nat.inj_add. generalize (N.to_nat a) (N.to_nat (sumN sizes)). clear. intros n m. revert l.
  induction n; intros; cbn; auto. destruct l; cbn; [now rewrite firstn_nil|]. f_equal. apply IHn.
Qed.

Lemma us_correct : forall chunks sched, Forall (fun c => c <> []) chunks ->
  us_run sched (ustream_new (map EvData chunks)) = Ok (cut sched (resynchronise (concat chunks))).
Proof.
  intros. rewrite us_run_spec.
  - do 2 f_equal. unfold pending; cbn [us_avail us_inner us_ff ustream_new app].
    assert (flat_map ev_bytes (map EvData chunks) = concat chunks) by (clear; induction chunks; cbn; congruence).
    rewrite H0. destruct (concat chunks); reflexivity.
  - cbn. clear -H. induction H; cbn; constructor; auto.
Qed.

Lemma resync_unsync : forall l, resynchronise (unsynchronise l) = l.
Proof.
  induction l; auto. cbn [unsynchronise]. destruct (N.eqb_spec a 255).
  - subst. cbn [resynchronise]. change ((255 =? 255) && (0 =? 0)) with true. cbn iota. now rewrite IHl.
  - rewrite resync_cons. apply N.eqb_neq in n. rewrite n. f_equal.
    unfold deliver. cbn [andb]. destruct (unsynchronise l) eqn:E; auto.
Qed.
