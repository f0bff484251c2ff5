From Verif Require Import BaseLemmas OggModel OggSpec OggCrcProof OggProof OggReadProof OggPacketsProof.

Notation MAXC := 8160.

(** Closed form of the pages of one packet. *)
Definition nonempty {A} (l : list A) : bool := match l with [] => false | _ => true end.

Fixpoint chunk_pages (fuel : nat) (abgp serial ls : N) (flag0 : N) (idx pos : N) (packet : bytes) : list page :=
  match fuel with
  | O => []
  | S f =>
    match packet with
    | [] => []
    | _ =>
      let chunk := takeN MAXC packet in
      let rest := dropN MAXC packet in
      mkPage pos flag0 (if nonempty rest then 2 ^ 64 - 1 else abgp) serial (idx mod 2 ^ 32)
        (repeat 255 (N.to_nat (lenN chunk / 255)) ++ (if lenN chunk =? MAXC then [] else [ls]))
        0 chunk (pos + lenN chunk)
      :: chunk_pages f abgp serial ls 1 (idx + 1) (pos + lenN chunk) rest
    end
  end.

Definition nil_page (abgp serial idx len : N) : page :=
  mkPage len 1 abgp serial (idx mod 2 ^ 32) [0] 0 [] len.

Definition packet_pages (abgp serial flag0 idx : N) (packet : bytes) : list page :=
  let P := chunk_pages (length packet) abgp serial (lenN packet mod 255) flag0 idx 0 packet in
  if (nonempty packet) && (lenN packet mod MAXC =? 0)
  then P ++ [nil_page abgp serial (idx + lenN P) (lenN packet)] else P.

Lemma dropN_lt : forall A n (l : list A), 0 < n -> l <> [] -> (length (dropN n l) < length l)%nat.
Proof. intros. unfold dropN. rewrite skipn_length. destruct l; [congruence|cbn [length]; lia]. Qed.

Lemma chunk_pages_nil : forall f a s l fl i p, chunk_pages f a s l fl i p [] = [].
Proof. destruct f; reflexivity. Qed.

Lemma chunk_pages_fuel : forall f g a s l fl i p packet, (length packet <= f)%nat -> (length packet <= g)%nat ->
  chunk_pages f a s l fl i p packet = chunk_pages g a s l fl i p packet.
Proof.
  induction f; intros.
  - destruct packet; [|cbn in H; lia]. now rewrite !chunk_pages_nil.
  - destruct packet; [now rewrite !chunk_pages_nil|]. destruct g; [cbn in H0; lia|].
    cbn [chunk_pages]. f_equal. pose proof (dropN_lt _ MAXC (n :: packet)).
    apply IHf; lia || (assert (length (dropN MAXC (n :: packet)) < length (n :: packet))%nat by (apply H1; [lia|discriminate]); lia).
Qed.

Lemma full32 : forall n, n <= MAXC -> (n / 255 =? MAX_SEGS) = (n =? MAXC).
Proof. intros. unfold MAX_SEGS. destruct (N.eqb_spec (n / 255) 32), (N.eqb_spec n MAXC); auto; lia. Qed.

Definition ctx_flag (c : pctx) : N :=
  if c_first c && negb (N.land (c_hflags c) FIRST_PAGE =? 0) then FIRST_PAGE
  else if negb (c_fresh c) then CONTINUED_PACKET else 0.

Lemma paginate_loop_spec : forall fuel c packet ls,
  (length packet < fuel)%nat -> packet <> [] ->
  c_remaining c = MAXC -> c_finished c = false -> c_curlen c = c_pos c + lenN packet ->
  c_lastseg c = Some ls ->
  paginate_loop fuel c [] packet =
    Ok (mkCtx (c_pages c ++ chunk_pages (length packet) (c_abgp c) (c_serial c) ls (ctx_flag c) (c_idx c) (c_pos c) packet)
          (c_abgp c) (c_serial c) (c_hflags c) false false false (c_curlen c)
          (c_idx c + lenN (chunk_pages (length packet) (c_abgp c) (c_serial c) ls (ctx_flag c) (c_idx c) (c_pos c) packet))
          MAXC (c_curlen c) (c_lastseg c), []).
Proof.
  induction fuel; intros c packet ls Hf Hne Hrem Hfin Hcur Hls; [lia|].
  destruct packet as [|b packet]; [congruence|]. set (pk := b :: packet) in *.
  cbn [paginate_loop]. unfold pk at 1. cbn iota. fold pk.
  set (n := N.min (c_remaining c) (lenN pk)).
  assert (Ht : takeN n pk = takeN MAXC pk).
  { unfold n. rewrite Hrem. destruct (N.le_ge_cases MAXC (lenN pk)).
    - now rewrite N.min_l. - rewrite N.min_r by auto. now rewrite !takeN_all by lia. }
  assert (Hd : dropN n pk = dropN MAXC pk).
  { unfold n. rewrite Hrem. destruct (N.le_ge_cases MAXC (lenN pk)).
    - now rewrite N.min_l. - rewrite N.min_r by auto. now rewrite !dropN_all by lia. }
  cbn [app]. rewrite Ht, Hd.
  set (chunk := takeN MAXC pk) in *. set (rest := dropN MAXC pk) in *.
  assert (Lc : lenN chunk = n). { unfold chunk. rewrite lenN_takeN. unfold n. now rewrite Hrem. }
  assert (Ln : n <= MAXC) by (unfold n; lia).
  assert (Lr : lenN rest = lenN pk - MAXC) by (unfold rest; apply lenN_dropN).
  assert (Lpk : 0 < lenN pk) by (unfold pk; rewrite lenN_cons; lia).
  assert (Hcond : (c_remaining c - n =? 0) || negb (nonempty rest) = true).
  { destruct (N.eqb_spec (c_remaining c - n) 0); auto. cbn [orb]. 
    assert (lenN rest = 0) by (unfold n in *; lia). apply lenN_0 in H. now rewrite H. }
  replace (match rest with [] => true | _ :: _ => false end) with (negb (nonempty rest)) by (destruct rest; reflexivity).
  replace (n <=? MAX_CONTENT) with true by (symmetry; apply N.leb_le; exact Ln). cbn [andb].
  set (c1 := set_remaining (c_remaining c - n) c).
  assert (E1 : c_remaining (if negb (nonempty rest) then set_finished c1 else c1) = c_remaining c - n).
  { destruct (nonempty rest); reflexivity. }
  rewrite E1, Hcond.
  (* the flush *)
  set (P0 := mkPage (c_pos c) (ctx_flag c) (if nonempty rest then 2 ^ 64 - 1 else c_abgp c) (c_serial c) (c_idx c mod 2 ^ 32)
        (repeat 255 (N.to_nat (lenN chunk / 255)) ++ (if lenN chunk =? MAXC then [] else [ls]))
        0 chunk (c_pos c + lenN chunk)).
  assert (EF : flush_page (if negb (nonempty rest) then set_finished c1 else c1) chunk =
     Ok (mkCtx (c_pages c ++ [P0]) (c_abgp c) (c_serial c) (c_hflags c) (c_first c) (c_fresh c) false
            (c_pos c + lenN chunk) (c_idx c + 1) MAX_CONTENT (c_curlen c) (c_lastseg c))).
  { unfold flush_page.
    replace (c_pos (if negb (nonempty rest) then set_finished c1 else c1)) with (c_pos c) by (destruct (nonempty rest); reflexivity).
    replace (c_curlen (if negb (nonempty rest) then set_finished c1 else c1)) with (c_curlen c) by (destruct (nonempty rest); reflexivity).
    replace (c_lastseg (if negb (nonempty rest) then set_finished c1 else c1)) with (c_lastseg c) by (destruct (nonempty rest); reflexivity).
    destruct (N.ltb_spec (c_curlen c) (c_pos c + lenN chunk)); [lia|].
    unfold MAX_SEGS at 1. destruct (N.ltb_spec 32 (lenN chunk / 255)); [lia|].
    rewrite full32 by lia. rewrite Hls.
    destruct (lenN chunk =? MAXC) eqn:E8; cbn [negb bind]; unfold P0; rewrite ?E8, ?app_nil_r;
      destruct (nonempty rest); cbn [negb]; unfold set_finished, c1, set_remaining;
      cbn [c_pages c_abgp c_serial c_hflags c_first c_fresh c_finished c_pos c_idx c_remaining c_curlen c_lastseg];
      rewrite ?Hfin; reflexivity. }
  rewrite EF. cbn [bind]. unfold clear_first_fresh.
  cbn [c_pages c_abgp c_serial c_hflags c_first c_fresh c_finished c_pos c_idx c_remaining c_curlen c_lastseg].
  assert (Hlen : (length rest < length pk)%nat) by (apply dropN_lt; [lia|discriminate]).
  assert (CP : chunk_pages (length pk) (c_abgp c) (c_serial c) ls (ctx_flag c) (c_idx c) (c_pos c) pk =
     P0 :: chunk_pages (length rest) (c_abgp c) (c_serial c) ls 1 (c_idx c + 1) (c_pos c + lenN chunk) rest).
  { unfold pk at 1. cbn [length chunk_pages]. unfold pk at 1. cbn iota. fold pk. fold chunk rest. f_equal.
    apply chunk_pages_fuel; auto. unfold pk in Hlen. cbn [length] in Hlen. lia. }
  rewrite CP.
  destruct rest as [|b' rest'] eqn:Er.
  - rewrite chunk_pages_nil. destruct fuel; [cbn [length] in Hf; unfold pk in Hf; cbn in Hf; lia|]. cbn [paginate_loop].
    rewrite lenN_cons. cbn [lenN length]. do 2 f_equal. f_equal; try reflexivity.
    rewrite lenN_nil in Lr. lia.
  - rewrite (IHfuel _ _ ls).
    + cbn [c_pages c_abgp c_serial c_hflags c_first c_fresh c_finished c_pos c_idx c_remaining c_curlen c_lastseg].
      unfold ctx_flag; cbn [c_first c_fresh c_hflags andb negb].
      change CONTINUED_PACKET with 1.
      rewrite <- app_assoc. cbn [app]. rewrite lenN_cons. do 3 f_equal. lia.
    + lia.
    + discriminate.
    + reflexivity.
    + reflexivity.
    + cbn [c_curlen c_pos]. rewrite Lr, lenN_cons in *. lia.
    + auto.
Qed.

Definition pages_nonempty (p : bytes) : bool := nonempty p.

Lemma paginate_packet_spec : forall c packet,
  c_remaining c = MAXC -> c_finished c = false ->
  let flag0 := if c_first c && negb (N.land (c_hflags c) FIRST_PAGE =? 0) then FIRST_PAGE else 0 in
  let P := packet_pages (c_abgp c) (c_serial c) flag0 (c_idx c) packet in
  exists c', paginate_packet (fresh_packet c packet) packet = Ok c' /\
    c_pages c' = c_pages c ++ P /\ c_abgp c' = c_abgp c /\ c_serial c' = c_serial c /\ c_hflags c' = c_hflags c /\
    c_first c' = c_first c && negb (nonempty packet) /\ c_idx c' = c_idx c + lenN P /\
    c_remaining c' = MAXC /\ c_finished c' = false.
Proof.
  intros c packet Hrem Hfin flag0 P. unfold paginate_packet.
  destruct packet as [|b packet].
  - cbn [length paginate_loop bind nonempty negb]. rewrite andb_true_r.
    cbn [fresh_packet c_curlen]. rewrite lenN_nil. change (0 =? 0) with true. cbn [negb andb].
    eexists. split; [reflexivity|]. unfold P, packet_pages. cbn [nonempty andb].
    cbn [length chunk_pages lenN].
    cbn [fresh_packet c_pages c_abgp c_serial c_hflags c_first c_fresh c_finished c_pos c_idx c_remaining c_curlen c_lastseg].
    rewrite app_nil_r. repeat split; auto. { now rewrite andb_true_r. } rewrite lenN_nil. lia.
  - set (pk := b :: packet) in *.
    rewrite (paginate_loop_spec _ _ _ (lenN pk mod 255)); auto; try (cbn; lia); try discriminate.
    change (ctx_flag (fresh_packet c pk)) with flag0.
    cbn [bind c_curlen fresh_packet].
    cbn [c_pages c_abgp c_serial c_hflags c_first c_fresh c_finished c_pos c_idx c_remaining c_curlen c_lastseg].
    assert (Lpk : 0 < lenN pk) by (unfold pk; rewrite lenN_cons; lia).
    assert (E0 : (lenN pk =? 0) = false) by (apply N.eqb_neq; lia). rewrite E0. cbn [negb andb].
    change (255 * MAX_SEGS) with MAXC.
    unfold P, packet_pages. replace (nonempty pk) with true by reflexivity. cbn [andb negb].
    destruct (N.eqb_spec (lenN pk mod MAXC) 0) as [Em|Em].
    + unfold flush_page, set_finished.
      cbn [c_pages c_abgp c_serial c_hflags c_first c_fresh c_finished c_pos c_idx c_remaining c_curlen c_lastseg].
      rewrite lenN_nil, N.add_0_r.
      destruct (N.ltb_spec (lenN pk) (lenN pk)); [lia|].
      change (0 / 255) with 0. change (MAX_SEGS <? 0) with false. change (0 =? MAX_SEGS) with false. cbn [negb bind andb N.to_nat repeat app].
      eexists. split; [reflexivity|].
      cbn [c_pages c_abgp c_serial c_hflags c_first c_fresh c_finished c_pos c_idx c_remaining c_curlen c_lastseg].
      rewrite lenN_app, lenN_cons, lenN_nil, andb_false_r, <- app_assoc.
      repeat split; auto; try lia. unfold nil_page. change CONTINUED_PACKET with 1.
      change (N.to_nat 0) with O. cbn [repeat app].
      replace (lenN pk mod 255) with 0 by lia. reflexivity.
      cbn [fresh_packet c_abgp c_serial c_idx c_pos]. lia.
    + eexists. split; [reflexivity|].
      cbn [c_pages c_abgp c_serial c_hflags c_first c_fresh c_finished c_pos c_idx c_remaining c_curlen c_lastseg].
      rewrite andb_false_r. repeat split; auto.
Qed.

(** All pages. *)
Fixpoint all_pages (abgp serial : N) (wantf isf : bool) (idx : N) (packets : list bytes) : list page :=
  match packets with
  | [] => []
  | p :: ps =>
      let P := packet_pages abgp serial (if isf && wantf then FIRST_PAGE else 0) idx p in
      P ++ all_pages abgp serial wantf (isf && negb (nonempty p)) (idx + lenN P) ps
  end.

Lemma paginate_all_spec : forall ps c, c_remaining c = MAXC -> c_finished c = false ->
  exists c', paginate_all c ps = Ok c' /\
   c_pages c' = c_pages c ++ all_pages (c_abgp c) (c_serial c) (negb (N.land (c_hflags c) FIRST_PAGE =? 0)) (c_first c) (c_idx c) ps.
Proof.
  induction ps; intros c H1 H2; cbn [paginate_all all_pages].
  - eexists; split; [reflexivity|]. now rewrite app_nil_r.
  - destruct (paginate_packet_spec c a H1 H2) as (c1 & E & Ep & Ea & Es & Eh & Ef & Ei & Er & Efi).
    rewrite E. cbn [bind]. destruct (IHps c1 Er Efi) as (c' & E' & Ep'). exists c'. split; auto.
    rewrite Ep', Ep, Ea, Es, Eh, Ef, Ei, <- app_assoc. reflexivity.
Qed.

Lemma paginate_spec : forall packets serial abgp flags,
  paginate packets serial abgp flags =
   let P := all_pages abgp serial (negb (N.land flags 2 =? 0)) true 0 packets in
   Ok (if N.land flags 4 =? 4 then mark_last P else P).
Proof.
  intros. unfold paginate. destruct (paginate_all_spec packets (ctx_new abgp serial flags)) as (c & E & Ep); auto.
  rewrite E. cbn [bind]. rewrite Ep. reflexivity.
Qed.
