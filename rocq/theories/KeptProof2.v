(** Lemmas about the type of a file behind its changes: Ogg and FLAC. *)
From Verif Require Import BaseLemmas StrLemmas OggModel OggSpec OggPacketsProof OggFileModel OggFileProof FlacMoveModel FlacMoveThm FlacModel.

(** ** Ogg: the first packet, if it is short, is alone on the first page *)
Lemma flush_grows : forall c x c', flush_page c x = Ok c' -> exists more, c_pages c' = c_pages c ++ more.
Proof.
  intros c x c' H. unfold flush_page in H. destruct (_ <? _); [discriminate|]. destruct (_ <? _); [discriminate|].
  destruct (if negb _ then _ else _) as [segs| |]; cbn [bind] in H; try discriminate. injection H as <-. cbn [c_pages]. eauto.
Qed.
Lemma loop_grows : forall fuel c content packet c' x, paginate_loop fuel c content packet = Ok (c', x) -> exists more, c_pages c' = c_pages c ++ more.
Proof.
  induction fuel as [|fuel IH]; intros c content packet c' x H; [discriminate|]. cbn [paginate_loop] in H. destruct packet as [|b packet]. { injection H as <- _. exists []. now rewrite app_nil_r. }
  set (pk := b :: packet) in *. set (n := N.min _ _) in *. set (c1 := if (n <=? OggModel.MAX_CONTENT) && _ then set_finished _ else _) in H. assert (P1 : c_pages c1 = c_pages c) by (unfold c1; destruct (_ && _); reflexivity).
  destruct (_ || _).
  - destruct (flush_page c1 _) as [c2| |] eqn:F; cbn [bind] in H; try discriminate. apply flush_grows in F as (m1 & F). apply IH in H as (m2 & H). unfold clear_first_fresh in H. cbn [c_pages] in H. exists (m1 ++ m2). rewrite H, F, P1. now rewrite app_assoc.
  - cbn [bind] in H. apply IH in H as (m2 & H). unfold clear_first_fresh in H. cbn [c_pages] in H. exists m2. now rewrite H, P1.
Qed.
Lemma packet_grows : forall c packet c', paginate_packet c packet = Ok c' -> exists more, c_pages c' = c_pages c ++ more.
Proof.
  intros c packet c' H. unfold paginate_packet in H. destruct (paginate_loop _ c [] packet) as [[c1 x]| |] eqn:L; cbn [bind] in H; try discriminate. apply loop_grows in L as (m1 & L).
  destruct (match x with [] => Ok c1 | _ => flush_page c1 x end) as [c2| |] eqn:F; cbn [bind] in H; try discriminate.
  assert (G : exists m2, c_pages c2 = c_pages c1 ++ m2). { destruct x. injection F as <-. exists []. now rewrite app_nil_r. now apply flush_grows in F. }
  destruct G as (m2 & G). destruct (_ && _).
  - apply flush_grows in H as (m3 & H). unfold set_finished in H. cbn [c_pages] in H. exists (m1 ++ m2 ++ m3). rewrite H, G, L. now rewrite !app_assoc.
  - injection H as <-. exists (m1 ++ m2). rewrite G, L. now rewrite app_assoc.
Qed.
Lemma all_grows : forall ps c c', paginate_all c ps = Ok c' -> exists more, c_pages c' = c_pages c ++ more.
Proof.
  induction ps as [|p ps IH]; intros c c' H. { injection H as <-. exists []. now rewrite app_nil_r. }
  cbn [paginate_all] in H. destruct (paginate_packet _ p) as [c1| |] eqn:E; cbn [bind] in H; try discriminate. apply packet_grows in E as (m1 & E). unfold fresh_packet in E. cbn [c_pages] in E.
  apply IH in H as (m2 & H). exists (m1 ++ m2). rewrite H, E. now rewrite app_assoc.
Qed.
Lemma first_alone : forall p0 c, 0 < lenN p0 < 255 -> c_pages c = [] -> c_remaining c = OggModel.MAX_CONTENT -> exists c' p, paginate_packet (fresh_packet c p0) p0 = Ok c' /\ c_pages c' = [p] /\ pg_segs p = [lenN p0] /\ pg_content p = p0.
Proof.
  intros p0 [pages abgp serial hf first fresh fin pos idx rem cl ls] L P0 R0. cbn in P0, R0. subst pages rem. unfold paginate_packet, fresh_packet. cbn [c_pages c_abgp c_serial c_hflags c_first c_fresh c_finished c_pos c_idx c_remaining c_curlen c_lastseg].
  destruct p0 as [|b p0]; [change (lenN (@nil N)) with 0 in L; lia|]. set (pk := b :: p0) in *. assert (NE : length pk = S (length p0)) by reflexivity. rewrite NE. cbn [paginate_loop].
  assert (EQ : pk = b :: p0) by reflexivity. clearbody pk. destruct pk as [|b' p']; [discriminate|]. set (pk := b' :: p') in *. clearbody pk.
  cbn [c_remaining]. replace (N.min OggModel.MAX_CONTENT (lenN pk)) with (lenN pk) by (change OggModel.MAX_CONTENT with 8160; lia). rewrite takeN_all by lia. rewrite dropN_all by lia. cbn [app].
  replace (lenN pk <=? OggModel.MAX_CONTENT) with true by (change OggModel.MAX_CONTENT with 8160; lia). cbn [andb]. rewrite orb_true_r.
  unfold set_remaining, set_finished. cbn [c_pages c_abgp c_serial c_hflags c_first c_fresh c_finished c_pos c_idx c_remaining c_curlen c_lastseg].
  unfold flush_page at 1. cbn [c_pages c_abgp c_serial c_hflags c_first c_fresh c_finished c_pos c_idx c_remaining c_curlen c_lastseg].
  replace (lenN pk <? 0 + lenN pk) with false by lia. replace (lenN pk / 255) with 0 by (symmetry; apply N.div_small; lia). change (MAX_SEGS <? 0) with false. change (negb (0 =? MAX_SEGS)) with true. cbn [bind].
  change (repeat 255 (N.to_nat 0)) with (@nil N). cbn [app bind]. replace (lenN pk mod 255) with (lenN pk) by (symmetry; apply N.mod_small; lia).
  cbn [paginate_loop clear_first_fresh c_pages c_abgp c_serial c_hflags c_first c_fresh c_finished c_pos c_idx c_remaining c_curlen c_lastseg bind].
  replace (lenN pk mod (255 * MAX_SEGS)) with (lenN pk) by (symmetry; apply N.mod_small; change MAX_SEGS with 32; lia). replace (lenN pk =? 0) with false by lia. cbn [negb andb].
  eexists _, _. split; [reflexivity|]. split; [reflexivity|]. split; reflexivity.
Qed.
Lemma paginate_first : forall p0 ps serial abgp pages, 0 < lenN p0 < 255 -> paginate (p0 :: ps) serial abgp FIRST_PAGE = Ok pages -> exists p more, pages = p :: more /\ pg_segs p = [lenN p0] /\ pg_content p = p0.
Proof.
  intros p0 ps serial abgp pages L H. unfold paginate in H. cbn [paginate_all] in H. destruct (first_alone p0 (ctx_new abgp serial FIRST_PAGE) L eq_refl eq_refl) as (c' & p & E & P & S1 & C1). rewrite E in H. cbn [bind] in H.
  destruct (paginate_all c' ps) as [c2| |] eqn:G; cbn [bind] in H; try discriminate. apply all_grows in G as (m & G). change (N.land FIRST_PAGE LAST_PAGE =? 4) with false in H. injection H as <-. rewrite G, P. exists p, m. auto.
Qed.
Lemma write_first : forall p0 ps serial out n, 0 < lenN p0 < 255 -> write_to (mkPackets (concat (p0 :: ps)) (map lenN (p0 :: ps))) serial 0 FIRST_PAGE = Ok (out, n) ->
  exists h r, lenN h = 22 /\ out = $"OggS" ++ h ++ [1] ++ [lenN p0] ++ p0 ++ r.
Proof.
  intros p0 ps serial out n L H. destruct (pk_whole (p0 :: ps)) as [WF AB]. unfold write_to, pk_paginate in H. rewrite pk_slices_spec in H by (rewrite N.add_0_l; exact WF). rewrite dropN_0 in H.
  change (cut_sizes _ _) with (pk_abs (mkPackets (concat (p0 :: ps)) (map lenN (p0 :: ps)))) in H. rewrite AB in H. cbn [bind] in H.
  destruct (paginate (p0 :: ps) serial 0 FIRST_PAGE) as [pages| |] eqn:E; cbn [bind] in H; try discriminate. apply paginate_first in E as (p & more & -> & S1 & C1); auto.
  cbn [write_pages] in H. destruct (gen_crc p) as [p'| |] eqn:G; cbn [bind] in H; try discriminate. destruct (write_pages more) as [rest| |]; cbn [bind] in H; try discriminate. injection H as <- _.
  assert (K : pg_segs p' = [lenN p0] /\ pg_content p' = p0). { unfold gen_crc in G. destruct (crc32 _) as [c|]; [|discriminate]. injection G as <-. cbn [pg_segs pg_content set_cksum]. auto. }
  destruct K as [K1 K2]. unfold as_bytes. rewrite K1, K2. change (lenN [lenN p0] mod 256) with 1.
  exists ([0] ++ [pg_flag p'] ++ le_enc 8 (pg_abgp p') ++ le_enc 4 (pg_serial p') ++ le_enc 4 (pg_seq p') ++ le_enc 4 (pg_cksum p')), rest. split.
  - rewrite !lenN_app, !le_enc_len. reflexivity.
  - change ($"OggS") with OggS. now rewrite <- !app_assoc.
Qed.

(** ** FLAC: everything up to the signature stays *)
Lemma flac_same : forall data vendor items pics padding log h c p, flac_write data vendor items pics padding = Ok log -> find_id3v2 data 0 false None = Ok (h, c, p) ->
  takeN (p + 4) (apply_log data log) = takeN (p + 4) data /\ p + 4 <= lenN (apply_log data log) /\ takeN 4 (dropN p data) = $"fLaC".
Proof.
  intros data vendor items pics padding log h c p H F. unfold flac_write in H. rewrite F in H. destruct (verify_flac data p) as [[info e]| |] eqn:V; cbn [bind] in H; try discriminate.
  assert (VF : takeN 4 (dropN p data) = $"fLaC" /\ p + 4 <= lenN data).
  { unfold verify_flac in V. unfold frd, read_exact in V. rewrite lenN_dropN in V. destruct (N.leb_spec 4 (lenN data - p)); cbn [bind] in V; [|discriminate]. destruct (list_eqb _ ($"fLaC")) eqn:E; cbn [negb] in V; [|discriminate]. apply list_eqb_eq in E. split; auto. lia. }
  destruct VF as [VF PL]. destruct (write_loop _ data e _ _) as [[w stop]| |]; cbn [bind] in H; try discriminate.
  assert (GO : forall new log, match replace_range data (p + 4) stop new with Ok log => Ok log | Err _ => Err FlMove | Panic => Panic end = Ok log -> takeN (p + 4) (apply_log data log) = takeN (p + 4) data /\ p + 4 <= lenN (apply_log data log)).
  { clear H log. intros new log H. pose proof (C76_replace_range MOVE_BUFFER_SIZE data (p + 4) stop new ltac:(reflexivity)) as R. fold replace_range in R. destruct (_ && _).
    - destruct R as (log' & R1 & R2). rewrite R1 in H. injection H as <-. rewrite R2. unfold spliced. split; [|rewrite lenN_app, lenN_takeN; lia]. apply takeN_app. rewrite lenN_takeN. lia.
    - rewrite R in H. discriminate. }
  assert (FIN : log = [] \/ exists new, match replace_range data (p + 4) stop new with Ok log => Ok log | Err _ => Err FlMove | Panic => Panic end = Ok log).
  { destruct (match items with [] => match pics with [] => negb (w_remove w) | _ => false end | _ => false end) eqn:Q.
    - left. destruct items; [|discriminate]. destruct pics; [|discriminate]. destruct (w_remove w); [discriminate|]. now injection H as <-.
    - right. assert (H' : (let? m := encode_tag (w_vendor w) items pics in
          let bs := w_blocks w ++ m in
          let bs := (match padding, w_padding w with
                     | Some pref, false => bs ++ [new_padding (N.min (N.max (stop - (p + 4) - sumN (map block_len bs) - 4) pref) FlacModel.MAX_CONTENT)]
                     | _, _ => bs
                     end) in
          let? new := write_blocks bs in
          match replace_range data (p + 4) stop new with Ok log => Ok log | Err _ => Err FlMove | Panic => Panic end) = Ok log).
      { destruct items; [|exact H]. destruct pics; [|exact H]. destruct (w_remove w); [exact H|discriminate]. }
      clear H. destruct (encode_tag _ _ _) as [m| |]; cbn [bind] in H'; try discriminate. cbv zeta in H'. destruct (write_blocks _) as [new| |]; cbn [bind] in H'; try discriminate. eauto. }
  destruct FIN as [->|(new & FIN)]. { cbn [apply_log fold_left]. auto. } destruct (GO _ _ FIN). auto.
Qed.
