(** Lemmas about [TextModel]. *)
From Verif Require Import BaseLemmas.
From Verif Require Import TextModel TextSpec.

Lemma scalar_bound : forall c, scalar c <-> c < 0x110000 /\ (c < 0xD800 \/ 0xDFFF < c).
Proof. unfold scalar, scalarb. intros. lia. Qed.

(** *** UTF-8 *)
Lemma utf8_char_octets : forall c, c < 0x110000 -> octets c (utf8_char c).
Proof.
  intros. unfold utf8_char.
  destruct (N.ltb_spec c 0x80). now constructor.
  destruct (N.ltb_spec c 0x800).
  { replace c with (c / 64 * 64 + c mod 64) at 1 by lia. constructor; lia. }
  destruct (N.ltb_spec c 0x10000).
  { replace c with ((c / 4096 * 64 + (c / 64) mod 64) * 64 + c mod 64) at 1 by lia. constructor; lia. }
  replace c with (((c / 262144 * 64 + (c / 4096) mod 64) * 64 + (c / 64) mod 64) * 64 + c mod 64) at 1 by lia.
  constructor; lia.
Qed.
Lemma octets_char : forall c b, octets c b -> b = utf8_char c.
Proof.
  intros. unfold utf8_char. destruct H;
  repeat match goal with |- context [?x <? ?y] => destruct (N.ltb_spec x y); try lia end; repeat f_equal; lia.
Qed.
Lemma utf8_next_char : forall c l, scalar c -> utf8_next (utf8_char c ++ l) = Some (c, l).
Proof.
  intros c l H. apply scalar_bound in H. unfold utf8_char.
  destruct (N.ltb_spec c 0x80); [|destruct (N.ltb_spec c 0x800); [|destruct (N.ltb_spec c 0x10000)]];
  cbn [app utf8_next]; unfold contb, scalarb;
  repeat match goal with
  | |- context [if ?b then _ else _] => let E := fresh in destruct b eqn:E; try lia
  end; do 2 f_equal; lia.
Qed.
Lemma utf8_char_len : forall c, (1 <= length (utf8_char c))%nat.
Proof. intros. unfold utf8_char. repeat destruct (_ <? _); cbn; lia. Qed.
Lemma utf8_dec_enc_fuel : forall s fuel, str_ok s -> (length (utf8_enc s) <= fuel)%nat ->
  utf8_dec_fuel fuel (utf8_enc s) = Some s.
Proof.
  induction s; intros; cbn [utf8_enc] in *. destruct fuel; reflexivity.
  inversion H; subst. rewrite app_length in H0. pose proof (utf8_char_len a).
  destruct fuel; [lia|].
  unfold utf8_dec_fuel; fold utf8_dec_fuel. rewrite utf8_next_char by auto.
  rewrite IHs by (auto; lia). destruct (utf8_char a ++ utf8_enc s) eqn:E; auto.
  apply app_eq_nil in E as [E _]. rewrite E in H1. cbn in H1. lia.
Qed.
Lemma utf8_dec_enc : forall s, str_ok s -> utf8_dec (utf8_enc s) = Some s.
Proof. intros. apply utf8_dec_enc_fuel; auto. Qed.
Ltac inv H := inversion H; subst; clear H.
Ltac ifs H := repeat match type of H with
  | context [if ?b then _ else _] => let E := fresh "E" in destruct b eqn:E; try discriminate H
  | context [match ?l with [] => _ | _ :: _ => _ end] => destruct l; try discriminate H
  end.
Lemma utf8_next_spec : forall l c l', bytes_ok l -> utf8_next l = Some (c, l') -> scalar c /\ l = utf8_char c ++ l'.
Proof.
  intros l c l' Hb H. unfold utf8_next in H. destruct l as [|b0 l1]; [discriminate|].
  unfold contb, scalarb in H.
  ifs H; inv H; repeat match goal with H : bytes_ok (_ :: _) |- _ => inv H end; unfold byte_ok in *;
  (split; [apply scalar_bound; lia|]); unfold utf8_char;
  repeat match goal with |- context [?x <? ?y] => destruct (N.ltb_spec x y); try lia end;
  cbn [app]; repeat f_equal; lia.
Qed.
Lemma utf8_dec_fuel_spec : forall fuel l s, bytes_ok l -> utf8_dec_fuel fuel l = Some s -> str_ok s /\ utf8_enc s = l.
Proof.
  induction fuel; intros; destruct l; cbn [utf8_dec_fuel] in H0; try discriminate; try (inv H0; split; [constructor|reflexivity]).
  destruct (utf8_next (n :: l)) as [[c l']|] eqn:E; [|discriminate].
  destruct (utf8_dec_fuel fuel l') eqn:E2; inv H0.
  apply utf8_next_spec in E as [Hs E]; auto. rewrite E in H. apply bytes_ok_app in H as [_ H].
  apply IHfuel in E2 as [Hs2 E2]; auto. split. constructor; auto. cbn [utf8_enc]. now rewrite E2.
Qed.
Lemma utf8_dec_spec : forall l s, bytes_ok l -> utf8_dec l = Some s -> str_ok s /\ utf8_enc s = l.
Proof. intros; eapply utf8_dec_fuel_spec; eauto. Qed.
Lemma utf8_enc_app : forall a b, utf8_enc (a ++ b) = utf8_enc a ++ utf8_enc b.
Proof. induction a; intros; cbn [app utf8_enc]; auto. now rewrite IHa, app_assoc. Qed.
Lemma utf8_enc_ok : forall s, str_ok s -> bytes_ok (utf8_enc s).
Proof.
  induction s; intros; cbn [utf8_enc]. constructor. inv H. apply bytes_ok_app. split; auto.
  apply scalar_bound in H2. unfold utf8_char.
  repeat match goal with |- context [?x <? ?y] => destruct (N.ltb_spec x y); try lia end;
  repeat (apply Forall_cons; [unfold byte_ok; lia|]); constructor.
Qed.
Lemma utf8_char_nonzero : forall c, c <> 0 -> Forall (fun b => b <> 0) (utf8_char c).
Proof.
  intros. unfold utf8_char. repeat destruct (_ <? _); repeat (apply Forall_cons; [lia|]); constructor.
Qed.
Lemma utf8_enc_nonzero : forall s, Forall (fun c => c <> 0) s -> Forall (fun b => b <> 0) (utf8_enc s).
Proof. induction s; intros; cbn [utf8_enc]. constructor. inv H. apply Forall_app. split; auto. now apply utf8_char_nonzero. Qed.
Lemma utf8_enc_mapped : forall s, str_ok s -> mapped octets s (utf8_enc s).
Proof.
  induction s; intros; cbn [utf8_enc]. constructor. inv H. constructor; auto.
  apply scalar_bound in H2. apply utf8_char_octets. lia.
Qed.
Lemma mapped_utf8 : forall s b, mapped octets s b -> b = utf8_enc s.
Proof. induction 1; cbn [utf8_enc]; auto. apply octets_char in H. congruence. Qed.

(** *** UTF-16 *)
Lemma utf16_char_units : forall c, c < 0x110000 -> units c (utf16_char c).
Proof.
  intros. unfold utf16_char. destruct (N.ltb_spec c 0x10000). now constructor.
  replace c with (0x10000 + (c - 0x10000) / 1024 * 1024 + (c - 0x10000) mod 1024) at 1 by lia.
  constructor; lia.
Qed.
Lemma units_char : forall c u, units c u -> u = utf16_char c.
Proof.
  intros. unfold utf16_char. destruct H; match goal with |- context [?x <? ?y] => destruct (N.ltb_spec x y); try lia end; auto.
  repeat f_equal; lia.
Qed.
Lemma units_mapped : forall s, str_ok s -> mapped units s (utf16_units s).
Proof.
  induction s; intros; cbn [utf16_units]. constructor. inv H. constructor; auto.
  apply scalar_bound in H2. apply utf16_char_units. lia.
Qed.
Lemma mapped_units : forall s u, mapped units s u -> u = utf16_units s.
Proof. induction 1; cbn [utf16_units]; auto. apply units_char in H. congruence. Qed.
Lemma utf16_dec_units : forall s, str_ok s -> utf16_dec (utf16_units s) = Some s.
Proof.
  induction s; intros; cbn [utf16_units]; auto. inv H. apply scalar_bound in H2.
  unfold utf16_char. destruct (N.ltb_spec a 0x10000); cbn [app utf16_dec].
  - match goal with |- context [if ?b then _ else _] => destruct b eqn:E; try lia end. now rewrite IHs.
  - repeat match goal with |- context [if ?b then _ else _] => let E := fresh in destruct b eqn:E; try lia end.
    rewrite IHs by auto. do 2 f_equal. lia.
Qed.
Lemma utf16_units_bound : forall s, str_ok s -> Forall (fun u => u < 65536) (utf16_units s).
Proof.
  induction s; intros; cbn [utf16_units]; [constructor|]. inv H. apply scalar_bound in H2. apply Forall_app; split; auto.
  unfold utf16_char. destruct (N.ltb_spec a 0x10000); repeat (apply Forall_cons; [lia|]); constructor.
Qed.
Lemma utf16_units_nobom : forall s, str_ok s -> Forall (fun c => c <> 0xFEFF /\ c <> 0xFFFE) s ->
  Forall (fun u => u <> 0xFEFF /\ u <> 0xFFFE) (utf16_units s).
Proof.
  induction s; intros; cbn [utf16_units]; [constructor|]. inv H. inv H0. apply scalar_bound in H3. apply Forall_app; split; auto.
  unfold utf16_char. destruct (N.ltb_spec a 0x10000); repeat (apply Forall_cons; [lia|]); constructor.
Qed.
Lemma utf16_units_nonzero : forall s, Forall (fun c => c <> 0) s -> Forall (fun u => u <> 0) (utf16_units s).
Proof.
  induction s; intros; cbn [utf16_units]; [constructor|]. inv H. apply Forall_app; split; auto.
  unfold utf16_char. destruct (N.ltb_spec a 0x10000); repeat (apply Forall_cons; [lia|]); constructor.
Qed.
(** The chunk reader drops exactly the two byte order mark units. *)
Definition not_bom (u : N) : bool := negb ((u =? 0xFEFF) || (u =? 0xFFFE)).
Lemma chunks_bytes : forall be us, Forall (fun u => u < 65536) us ->
  u16_chunks be (flat_map (u16_bytes be) us) = filter not_bom us.
Proof.
  induction us; intros; cbn [flat_map]; auto. inv H.
  unfold not_bom in *. destruct be; cbn [u16_bytes app u16_chunks filter]; rewrite IHus by auto;
  match goal with |- (if ?b then _ else _) = (if ?c then _ else _) => replace b with (negb c) by lia; destruct c end;
  cbn [negb]; auto; f_equal; unfold u16_of; lia.
Qed.
Lemma filter_all : forall (A : Type) (f : A -> bool) l, Forall (fun x => f x = true) l -> filter f l = l.
Proof. induction l; intros; cbn; auto. inv H. rewrite H2. f_equal. auto. Qed.
Lemma utf16_units_filter : forall s, str_ok s -> filter not_bom (utf16_units s) = utf16_units (filter not_bom s).
Proof.
  induction s; intros; cbn [utf16_units filter]; auto. inv H. rewrite filter_app, IHs by auto.
  apply scalar_bound in H2. unfold not_bom. destruct ((a =? 0xFEFF) || (a =? 0xFFFE)) eqn:E; cbn [negb].
  - unfold utf16_char. replace (a <? 0x10000) with true by lia. cbn [filter]. rewrite E. reflexivity.
  - cbn [utf16_units]. f_equal. apply filter_all. unfold utf16_char.
    destruct (N.ltb_spec a 0x10000); repeat (apply Forall_cons; [lia|]); constructor.
Qed.
Lemma str_ok_filter : forall f s, str_ok s -> str_ok (filter f s).
Proof. induction s; intros; cbn; auto. inv H. destruct (f a); auto. Qed.

(** *** Trailing NULs *)
Lemma trim_spec : forall s, without_trailing_nuls s (trim_end_nulls s).
Proof.
  unfold without_trailing_nuls. induction s; cbn [trim_end_nulls].
  - split. now exists O. cbn. lia.
  - destruct IHs as [[n E] H]. destruct (trim_end_nulls s) as [|x t] eqn:Et.
    + destruct (N.eqb_spec a 0); subst.
      * split. exists (S n). reflexivity. cbn. lia.
      * split. exists n. reflexivity. cbn. auto.
    + split. exists n. rewrite E at 1. reflexivity. exact H.
Qed.
Lemma trim_unique : forall s t, without_trailing_nuls s t -> t = trim_end_nulls s.
Proof.
  intros s t [[n E] H]. subst. revert H. induction t; intros; cbn [app trim_end_nulls].
  - induction n; cbn [repeat trim_end_nulls]; auto. rewrite <- IHn. reflexivity.
  - destruct t.
    + cbn in H. cbn [app]. assert (trim_end_nulls (repeat 0 n) = []).
      { clear. induction n; cbn [repeat trim_end_nulls]; auto. now rewrite IHn. }
      rewrite H0. destruct (N.eqb_spec a 0); congruence.
    + assert (L : last (a :: n0 :: t) 1 = last (n0 :: t) 1) by reflexivity. rewrite L in H.
      rewrite <- IHt by auto. reflexivity.
Qed.
Lemma trim_id : forall s, Forall (fun c => c <> 0) s -> trim_end_nulls s = s.
Proof. induction s; intros; cbn [trim_end_nulls]; auto. inv H. rewrite IHs by auto. destruct s; auto. destruct (N.eqb_spec a 0); congruence. Qed.

(** *** Latin-1 *)
Lemma latin1_ok : forall s i lossy, Forall (fun c => c <= 255) s -> latin1_encode_at i lossy s = Ok s.
Proof.
  induction s; intros; cbn [latin1_encode_at]; auto. inv H. destruct (N.leb_spec a 255); [|lia].
  cbn [bind]. rewrite IHs by auto. reflexivity.
Qed.
Lemma latin1_lossy : forall s i, latin1_encode_at i true s = Ok (map (fun c => if c <=? 255 then c else 63) s).
Proof.
  induction s; intros; cbn [latin1_encode_at map]; auto. destruct (N.leb_spec a 255); cbn [bind]; rewrite IHs; reflexivity.
Qed.
Lemma latin1_err : forall s i, ~ Forall (fun c => c <= 255) s ->
  exists a c b, s = a ++ c :: b /\ Forall (fun c => c <= 255) a /\ 255 < c /\
    latin1_encode_at i false s = Err (mkEncErr (i + lenN a)).
Proof.
  induction s; intros. exfalso; auto. cbn [latin1_encode_at].
  destruct (N.leb_spec a 255).
  - cbn [bind]. destruct (IHs (i + 1)) as (x & c & b & E & Ha & Hc & Er).
    { intro. apply H. now constructor. }
    exists (a :: x), c, b. subst. rewrite Er. cbn [bind]. repeat split; auto. do 2 f_equal. rewrite lenN_cons. lia.
  - exists [], a, s. repeat split; auto. cbn [bind]. do 2 f_equal. rewrite lenN_nil. lia.
Qed.

(** *** Terminated reads *)
Lemma read_to_nul_app : forall t rest, Forall (fun b => b <> 0) t -> read_to_nul (t ++ 0 :: rest) = (t, 1, rest).
Proof.
  induction t; intros; cbn [app read_to_nul]; auto. inv H. rewrite IHt by auto. destruct (N.eqb_spec a 0); congruence.
Qed.
Lemma read_to_nul16_app : forall be us rest, Forall (fun u => u < 65536) us -> Forall (fun u => u <> 0) us ->
  read_to_nul16 (flat_map (u16_bytes be) us ++ 0 :: 0 :: rest) = (flat_map (u16_bytes be) us, 2, rest).
Proof.
  induction us; intros; cbn [flat_map app]; auto. inv H. inv H0.
  destruct be; cbn [u16_bytes app read_to_nul16]; rewrite IHus by auto;
  match goal with |- context [if ?b then _ else _] => destruct b eqn:E; try lia end; reflexivity.
Qed.
Lemma read_to_nul_total : forall r t n rest, read_to_nul r = (t, n, rest) -> lenN t + n + lenN rest = lenN r.
Proof.
  induction r; cbn [read_to_nul]; intros. inv H. reflexivity.
  destruct (a =? 0). inv H. rewrite lenN_cons, lenN_nil. lia.
  destruct (read_to_nul r) as [[t' n'] rest'] eqn:E. inv H. specialize (IHr _ _ _ eq_refl).
  rewrite !lenN_cons. lia.
Qed.
Lemma read_to_nul16_total_len : forall k r t n rest, (length r <= k)%nat -> read_to_nul16 r = (t, n, rest) ->
  lenN t + n + lenN rest <= lenN r /\ lenN t mod 2 = 0 /\ (bytes_ok r -> bytes_ok t).
Proof.
  induction k; intros; destruct r as [|a [|b r]]; cbn [read_to_nul16] in H0;
    try (inv H0; rewrite ?lenN_cons, ?lenN_nil; repeat split; try lia; auto; fail).
  - cbn [length] in H. lia.
  - cbn [length] in H. destruct ((a =? 0) && (b =? 0)).
    + inv H0. rewrite !lenN_cons, lenN_nil. repeat split; try lia; auto.
    + destruct (read_to_nul16 r) as [[t' n'] rest'] eqn:E. inv H0. apply IHk in E as (E1 & E2 & E3); [|lia].
      rewrite !lenN_cons. repeat split; try lia. intros Hb. inv Hb. inv H3. repeat constructor; auto.
Qed.
Lemma read_to_nul_ok : forall r t n rest, bytes_ok r -> read_to_nul r = (t, n, rest) -> bytes_ok t /\ Forall (fun b => b <> 0) t.
Proof.
  induction r; cbn [read_to_nul]; intros. inv H0. auto.
  inv H. destruct (N.eqb_spec a 0). inv H0. auto.
  destruct (read_to_nul r) as [[t' n'] rest'] eqn:E. inv H0. destruct (IHr _ _ _ H4 eq_refl). auto.
Qed.
Lemma read_to_terminator_total : forall r e t n rest, read_to_terminator r e = (t, n, rest) ->
  lenN t + n + lenN rest <= lenN r.
Proof.
  intros. destruct e; cbn [read_to_terminator] in H.
  1,4: apply read_to_nul_total in H; lia.
  all: eapply read_to_nul16_total_len in H; [|reflexivity]; tauto.
Qed.

(** *** decode_text is total *)
Lemma utf16_decode_nopanic : forall l be, utf16_decode_bytes l be <> Panic.
Proof. intros. unfold utf16_decode_bytes, utf16_decode. destruct l; [discriminate|]. destruct (utf16_dec _); discriminate. Qed.
Lemma decode_raw_nopanic : forall e b r, decode_raw e b r <> Panic.
Proof.
  intros. destruct e; cbn [decode_raw].
  - discriminate.
  - destruct (N.ltb_spec (lenN r) 2); [discriminate|]. destruct (negb _); [discriminate|].
    destruct r as [|x [|y r]]; rewrite ?lenN_cons, ?lenN_nil in H; try lia.
    destruct (bom_eqb b (0, 0)); cbn [bind];
    repeat match goal with |- context [if ?c then _ else _] => destruct c end; try discriminate;
    match goal with |- bind ?z _ <> _ => destruct z eqn:E; try discriminate; now apply utf16_decode_nopanic in E end.
  - destruct (utf16_decode_bytes r true) eqn:E; try discriminate. now apply utf16_decode_nopanic in E.
  - unfold utf8_decode. destruct (utf8_dec r); discriminate.
Qed.
Lemma decode_text_total : forall e t b r,
  match decode_text e t b r with
  | Panic => False
  | Err _ => True
  | Ok (d, rest) => d_read d + lenN rest <= lenN r
  end.
Proof.
  intros. unfold decode_text. destruct t.
  - destruct (read_to_terminator r e) as [[raw n] rest] eqn:E. apply read_to_terminator_total in E.
    destruct raw. cbn [d_read]. lia.
    destruct (decode_raw e b (n0 :: raw)) as [[s bm]| |] eqn:E2; cbn [bind d_read]; auto. now apply decode_raw_nopanic in E2.
  - destruct r. cbn; lia.
    destruct (decode_raw e b (n :: r)) as [[s bm]| |] eqn:E2; cbn [bind d_read]; auto.
    rewrite lenN_nil. lia. now apply decode_raw_nopanic in E2.
Qed.

(** *** Round trip *)
Definition bom_bytes (be : bool) : N * N := if be then (0xFE, 0xFF) else (0xFF, 0xFE).
Lemma flat_map_u16_nil : forall be us, flat_map (u16_bytes be) us = [] -> us = [].
Proof. intros. destruct us; auto. destruct be; discriminate. Qed.
Lemma lenN_flat_u16 : forall be us, lenN (flat_map (u16_bytes be) us) = 2 * lenN us.
Proof. induction us; cbn [flat_map]. reflexivity. rewrite lenN_app, IHus, lenN_cons. destruct be; cbn [u16_bytes]; rewrite !lenN_cons, lenN_nil; lia. Qed.

Lemma utf16_decode_bytes_enc : forall be us s, Forall (fun u => u < 65536) us -> filter not_bom us = utf16_units s -> str_ok s ->
  utf16_decode_bytes (flat_map (u16_bytes be) us) be = Ok (trim_end_nulls s).
Proof.
  intros. unfold utf16_decode_bytes. destruct (flat_map (u16_bytes be) us) eqn:E.
  - apply flat_map_u16_nil in E. subst. cbn in H0. destruct s; auto. cbn [utf16_units] in H0.
    unfold utf16_char in H0. destruct (n <? 65536); discriminate.
  - rewrite <- E, chunks_bytes by auto. unfold utf16_decode. rewrite H0, utf16_dec_units by auto. reflexivity.
Qed.

Lemma bom_case : forall be, bom_eqb (bom_bytes be) (0, 0) = false /\ bom_eqb (bom_bytes be) (0xFE, 0xFF) = be /\ (be = false -> bom_eqb (bom_bytes be) (0xFF, 0xFE) = true).
Proof. destruct be; repeat split; reflexivity || discriminate. Qed.

Lemma decode_raw_utf16 : forall be us s bo, Forall (fun u => u < 65536) us -> filter not_bom us = utf16_units s -> str_ok s ->
  bo = (0, 0) \/ bo = bom_bytes be ->
  decode_raw UTF16 bo (flat_map (u16_bytes be) (0xFEFF :: us)) = Ok (trim_end_nulls s, bom_bytes be).
Proof.
  intros. unfold decode_raw. rewrite lenN_flat_u16, lenN_cons.
  destruct (N.ltb_spec (2 * (1 + lenN us)) 2); [lia|].
  replace ((2 * (1 + lenN us)) mod 2) with 0 by lia. cbn [N.eqb negb].
  match goal with |- context [bind ?X _] => assert (E : X = Ok (bom_bytes be)) end.
  { destruct H2; subst; destruct be; reflexivity. }
  change (negb (0 =? 0)) with false. cbv iota. rewrite E. cbn [bind].
  destruct (bom_case be) as (_ & B & C). rewrite B.
  destruct be.
  - rewrite utf16_decode_bytes_enc with (s := s); auto. constructor; auto. lia.
  - rewrite C by auto. rewrite utf16_decode_bytes_enc with (s := s); auto. constructor; auto. lia.
Qed.

(** What a text looks like after being written unterminated and read back. *)
Definition survives (e : encoding) (s : str) : str :=
  match e with Latin1 | UTF8 => trim_end_nulls s | UTF16 | UTF16BE => trim_end_nulls (filter not_bom s) end.

Lemma encode_spec : forall ne e s t, str_ok s ->
  (e = Latin1 -> Forall (fun c => c <= 255) s) ->
  exists b, encode ne e s t false = Ok (b ++ (if t then terminator e else [])) /\ enc_bytes ne e s b.
Proof.
  intros. destruct e; cbn [encode enc_bytes].
  - exists s. unfold latin1_encode. rewrite latin1_ok by auto. cbn [bind]. destruct t; rewrite ?app_nil_r; auto.
  - exists (flat_map (u16_bytes ne) (0xFEFF :: utf16_units s)). split.
    + unfold utf16_encode. cbn [flat_map]. rewrite <- app_assoc. destruct t; reflexivity.
    + exists (utf16_units s). split. now apply units_mapped. rewrite flat_map_concat_map. destruct ne; reflexivity.
  - exists (flat_map (u16_bytes true) (utf16_units s)). split.
    + unfold utf16_encode. cbn [app]. destruct t; reflexivity.
    + exists (utf16_units s). split. now apply units_mapped. rewrite flat_map_concat_map. reflexivity.
  - exists (utf8_enc s). split. destruct t; reflexivity. now apply utf8_enc_mapped.
Qed.

Lemma enc_bytes_det : forall ne e s b, str_ok s -> enc_bytes ne e s b ->
  match e with
  | Latin1 => b = s
  | UTF8 => b = utf8_enc s
  | UTF16 => b = flat_map (u16_bytes ne) (0xFEFF :: utf16_units s)
  | UTF16BE => b = flat_map (u16_bytes true) (utf16_units s)
  end.
Proof.
  intros. destruct e; cbn [enc_bytes] in H0.
  - tauto.
  - destruct H0 as (u & Hu & ->). apply mapped_units in Hu. subst. rewrite flat_map_concat_map. destruct ne; reflexivity.
  - destruct H0 as (u & Hu & ->). apply mapped_units in Hu. subst. rewrite flat_map_concat_map. reflexivity.
  - now apply mapped_utf8.
Qed.

Definition out_bom (ne : bool) (e : encoding) : N * N := match e with UTF16 => bom_bytes ne | _ => (0, 0) end.

Lemma decode_raw_enc : forall ne e s b bo, str_ok s -> enc_bytes ne e s b -> bo = (0, 0) \/ bo = bom_bytes ne ->
  decode_raw e bo b = Ok (survives e s, out_bom ne e).
Proof.
  intros. apply enc_bytes_det in H0; auto. destruct e; subst b; cbn [survives out_bom].
  - reflexivity.
  - apply decode_raw_utf16; auto using utf16_units_bound, str_ok_filter. now apply utf16_units_filter.
  - cbn [decode_raw]. rewrite utf16_decode_bytes_enc with (s := filter not_bom s);
      auto using utf16_units_bound, str_ok_filter. now apply utf16_units_filter.
  - cbn [decode_raw]. unfold utf8_decode. rewrite utf8_dec_enc by auto. reflexivity.
Qed.

Lemma decode_unterminated : forall ne e s b, str_ok s -> enc_bytes ne e s b ->
  exists bom, decode_text e false (0, 0) b = Ok (mkDec (survives e s) (lenN b) bom, []).
Proof.
  intros. pose proof (decode_raw_enc ne e s b (0, 0) H H0 (or_introl eq_refl)).
  unfold decode_text. destruct b.
  - exists (0, 0). assert (survives e s = []) as ->; auto.
    apply enc_bytes_det in H0; auto. destruct e; cbn [survives].
    + subst; auto. + destruct ne; discriminate.
    + symmetry in H0. apply flat_map_u16_nil in H0. destruct s; auto. cbn [utf16_units] in H0. unfold utf16_char in H0. destruct (_ <? _); discriminate.
    + destruct s; auto. symmetry in H0. cbn [utf8_enc] in H0. apply app_eq_nil in H0 as [H0 _]. pose proof (utf8_char_len n). rewrite H0 in H2. cbn in H2. lia.
  - rewrite H1. cbn [bind]. eauto.
Qed.

Lemma recoverable_survives : forall e s, recoverable e s -> survives e s = s.
Proof.
  intros e s [H1 H2]. destruct e; cbn [survives]; try now apply trim_id.
  all: rewrite filter_all; [now apply trim_id|]; eapply Forall_impl; [|exact H2]; cbv beta; unfold not_bom; intros; lia.
Qed.

Lemma read_terminated : forall ne e s b rest, str_ok s -> Forall (fun c => c <> 0) s -> enc_bytes ne e s b ->
  read_to_terminator (b ++ terminator e ++ rest) e = (b, lenN (terminator e), rest).
Proof.
  intros. apply enc_bytes_det in H1; auto. destruct e; subst b; cbn [read_to_terminator terminator app].
  - now apply read_to_nul_app.
  - apply read_to_nul16_app. constructor. lia. now apply utf16_units_bound. constructor. lia. now apply utf16_units_nonzero.
  - apply read_to_nul16_app. now apply utf16_units_bound. now apply utf16_units_nonzero.
  - apply read_to_nul_app. now apply utf8_enc_nonzero.
Qed.

Lemma decode_terminated : forall ne e s b rest, str_ok s -> recoverable e s -> enc_bytes ne e s b ->
  exists bom, decode_text e true (0, 0) (b ++ terminator e ++ rest) = Ok (mkDec s (lenN b + lenN (terminator e)) bom, rest).
Proof.
  intros. pose proof H0 as [Hz _]. unfold decode_text. erewrite read_terminated by eauto.
  pose proof (decode_raw_enc ne e s b (0, 0) H H1 (or_introl eq_refl)).
  rewrite recoverable_survives in H2 by auto.
  destruct b.
  - exists (0, 0). rewrite lenN_nil. apply enc_bytes_det in H1; auto. destruct e.
    + subst; auto. + destruct ne; discriminate.
    + symmetry in H1. apply flat_map_u16_nil in H1. destruct s; auto. cbn [utf16_units] in H1. unfold utf16_char in H1. destruct (_ <? _); discriminate.
    + destruct s; auto. symmetry in H1. cbn [utf8_enc] in H1. apply app_eq_nil in H1 as [H1 _]. pose proof (utf8_char_len n). rewrite H1 in H3. cbn in H3. lia.
  - rewrite H2. cbn [bind]. eauto.
Qed.

Lemma maybe_bom_spec : forall be dflt bom s rest, str_ok s -> recoverable UTF16 s -> (bom = false -> dflt = be) ->
  utf16_decode_terminated_maybe_bom (flat_map (u16_bytes be) ((if (bom : bool) then [0xFEFF] else []) ++ utf16_units s) ++ 0 :: 0 :: rest) dflt
  = Ok (s, 2 * lenN (utf16_units s) + (if bom then 4 else 2), rest).
Proof.
  intros be dflt bom s rest Hs Hr Hd. pose proof Hr as [Hz Hb].
  pose proof (utf16_units_bound s Hs) as B. pose proof (utf16_units_nonzero s Hz) as Z.
  pose proof (utf16_units_nobom s Hs Hb) as NB.
  assert (D : utf16_decode_bytes (flat_map (u16_bytes be) (utf16_units s)) be = Ok s).
  { rewrite utf16_decode_bytes_enc with (s := s); auto. now rewrite trim_id.
    apply filter_all. eapply Forall_impl; [|exact NB]. unfold not_bom; cbv beta; intros; lia. }
  unfold utf16_decode_terminated_maybe_bom. cbn [read_to_terminator].
  rewrite read_to_nul16_app.
  2:{ destruct bom; cbn [app]; auto. constructor; [lia|auto]. }
  2:{ destruct bom; cbn [app]; auto. constructor; [lia|auto]. }
  rewrite lenN_flat_u16, lenN_app. destruct bom.
  - cbn [app flat_map]. destruct be; cbn [u16_bytes app].
    + change (0xFEFF / 256) with 0xFE. change (0xFEFF mod 256) with 0xFF.
      change ((254 =? 255) && (255 =? 254)) with false. change ((254 =? 254) && (255 =? 255)) with true. cbv iota.
      rewrite D. cbn [bind]. do 3 f_equal. rewrite lenN_cons, lenN_nil. lia.
    + change (0xFEFF / 256) with 0xFE. change (0xFEFF mod 256) with 0xFF.
      change ((255 =? 255) && (254 =? 254)) with true. cbv iota.
      rewrite D. cbn [bind]. do 3 f_equal. rewrite lenN_cons, lenN_nil. lia.
  - rewrite Hd by auto. cbn [app]. rewrite lenN_nil.
    match goal with |- bind ?X _ = _ => assert (E : X = Ok s) end.
    { destruct (utf16_units s) as [|u us] eqn:Eu. { exact D. }
      inversion NB as [|? ? [N1 N2] ?]; subst. inversion B; subst.
      destruct be; cbn [flat_map u16_bytes app] in *;
      repeat match goal with |- context [if ?c then _ else _] => let E := fresh in destruct c eqn:E; try lia end; exact D. }
    rewrite E. cbn [bind]. repeat f_equal; lia.
Qed.
