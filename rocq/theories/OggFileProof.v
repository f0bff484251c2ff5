From Verif Require Import BaseLemmas StrLemmas TextProof PictureModel PictureProof PictureThm OggSpec OggCrcProof OggProof OggReadProof OggPacketsProof OggPagProof OggPagProof2 OggFinal VorbisThm FlacMoveThm.
From Verif Require Import OggFileModel.

(** The bytes of a comment packet are bytes. *)
Lemma b64_char_ok : forall n, b64_char n < 256.
Proof.
  intros. unfold b64_char. 
  destruct (nth_in_or_default (N.to_nat n) B64 0) as [I| ->]; [|lia].
  assert (F : forallb (fun c => c <? 256) B64 = true) by reflexivity. rewrite forallb_forall in F. apply F in I. lia.
Qed.
Lemma b64_ok : forall k l, (length l <= k)%nat -> bytes_ok (b64_encode l).
Proof.
  pose proof b64_char_ok as C. unfold byte_ok.
  induction k; intros [|a [|b [|c l]]] L; cbn [length b64_encode] in *; try lia; repeat (apply Forall_cons; [apply C || lia|]); try apply Forall_nil.
  apply IHk. lia.
Qed.
Lemma comments_ok : forall items a, Forall (fun i : str * str => str_ok (fst i) /\ str_ok (snd i)) items -> create_comments items = Ok a -> Forall bytes_ok a.
Proof.
  induction items as [|[k v] items IH]; cbn [create_comments]; intros a F H. { inversion H. constructor. }
  inversion F as [|? ? [K V] F']; subst. cbn [fst snd] in *. destruct v as [|c v]; [now apply IH|]. destruct (_ <? _); [discriminate|].
  destruct (create_comments items) as [r| |] eqn:E; cbn [bind] in H; try discriminate. inversion H; subst. constructor; [|now apply IH].
  apply utf8_enc_ok. apply Forall_app. split; auto. apply Forall_cons; auto. reflexivity.
Qed.
Lemma pictures_ok : forall l a, create_pictures l = Ok a -> Forall bytes_ok a.
Proof.
  induction l as [|[p i] l IH]; cbn [create_pictures]; intros a H. { inversion H. constructor. }
  destruct (_ <? _); [discriminate|]. destruct (create_pictures l) as [r| |] eqn:E; cbn [bind] in H; try discriminate.
  assert (a = (MBP ++ [61] ++ as_flac_bytes p i true) :: r) by congruence. clear H. subst a. constructor; [|now apply IH]. apply Forall_app. split. { assert (F : forallb (fun c => c <? 256) MBP = true) by reflexivity. rewrite forallb_forall in F. apply Forall_forall. intros x X. apply F in X. unfold byte_ok. lia. }
  apply Forall_cons. unfold byte_ok. lia. unfold as_flac_bytes. eapply b64_ok. apply le_n.
Qed.
Lemma packet_ok : forall t sig fr b, bytes_ok sig -> str_ok (vc_vendor t) -> Forall (fun i => str_ok (fst i) /\ str_ok (snd i)) (vc_items t) ->
  create_metadata_packet t sig fr = Ok b -> bytes_ok b.
Proof.
  unfold create_metadata_packet. intros t sig fr b S V I H.
  destruct (create_comments _) as [x| |] eqn:E1; cbn [bind] in H; try discriminate.
  destruct (create_pictures _) as [y| |] eqn:E2; cbn [bind] in H; try discriminate.
  destruct (_ <? _); [discriminate|].
  assert (b = sig ++ vendor_bytes (vc_vendor t) ++ le_enc 4 (lenN (x ++ y)) ++ flat_map comment_bytes (x ++ y) ++ (if fr then [1] else [])) by congruence.
  subst b. apply comments_ok in E1; auto. apply pictures_ok in E2. apply bytes_ok_app. split; auto. apply bytes_ok_app. split.
  { unfold vendor_bytes. apply bytes_ok_app. split. apply le_enc_ok. now apply utf8_enc_ok. }
  apply bytes_ok_app. split. apply le_enc_ok. apply bytes_ok_app. split.
  - assert (F : Forall bytes_ok (x ++ y)) by (apply Forall_app; auto). clear -F. induction F; cbn [flat_map]. constructor.
    apply bytes_ok_app. split; auto. apply bytes_ok_app. split; auto. apply le_enc_ok.
  - destruct fr; repeat constructor.
Qed.

(** ** Reading header packets that end with a page *)
Lemma delace_done : forall segs P, snd (delace P segs) = 0 -> segs <> [] -> fst (delace P segs) <> [].
Proof.
  induction segs as [|a segs IH]; intros P H NE; [congruence|]. cbn [delace] in *. destruct (N.ltb_spec a 255).
  - destruct (delace 0 segs). cbn. discriminate.
  - destruct segs. cbn [delace snd] in H. lia. apply IH; auto. discriminate.
Qed.
Lemma segs_ne : forall p, page_ok p -> pg_segs p <> [].
Proof. intros p (_ & _ & _ & _ & _ & H & _) E. cbn [fields f_segs] in H. rewrite E in H. change (lenN (@nil N)) with 0 in H. lia. Qed.

Lemma read_pages_exact : forall fuel count ps s tail,
  (length (bytes_of ps) < fuel)%nat -> Forall page_ok ps -> ps <> [] ->
  a0 (rs_already s) = rs_psize s -> (0 <= rs_read s)%Z ->
  snd (delace (rs_psize s) (segs_of ps)) = 0 ->
  (rs_read s + Z.of_nat (length (fst (delace (rs_psize s) (segs_of ps)))) = count)%Z ->
  read_pages fuel count s (bytes_of ps ++ tail) =
    Ok (mkR (rs_content s ++ content_of ps) (rs_sizes s ++ fst (delace (rs_psize s) (segs_of ps))) 0 None count, tail).
Proof.
  induction fuel; intros count ps s tail Hf Hok NE Ha Hnn Hz Hc; [lia|].
  cbn [read_pages]. destruct ps as [|p ps]; [congruence|].
  pose proof (Forall_inv Hok) as H1. pose proof (Forall_inv_tail Hok) as H2. cbn [bytes_of segs_of content_of flat_map] in *. fold (bytes_of ps) (segs_of ps) (content_of ps) in *.
  rewrite <- app_assoc, header_read_ok by auto. cbn [pg_segs].
  pose proof H1 as (_ & _ & _ & _ & _ & _ & Hsum). cbn [fields f_segs f_content] in Hsum.
  rewrite delace_app in Hz, Hc |- *. cbn [fst snd] in Hz, Hc |- *. rewrite app_length in Hf, Hc.
  pose proof (delace_sum (pg_segs p) (rs_psize s)) as DS. assert (Hcount := Hc). clear Hc.
  destruct ps as [|q ps].
  - cbn [segs_of flat_map delace fst snd] in *. assert (D1 := delace_done _ _ Hz (segs_ne _ H1)). cbn [length] in Hcount.
    set (l := fst (delace (rs_psize s) (pg_segs p))) in *. assert (0 < length l)%nat by (destruct l; [congruence|cbn; lia]).
    rewrite read_segs_stop; fold l; try lia. 2: rewrite lenN_app; lia.
    cbn [bind]. replace (Z.to_nat (count - rs_read s)) with (length l) by lia. rewrite firstn_all.
    cbn [bytes_of flat_map app content_of]. rewrite !app_nil_r. rewrite takeN_app, dropN_app by lia. reflexivity.
  - set (ps' := q :: ps) in *. assert (NE' : ps' <> []) by discriminate. clearbody ps'. clear q ps NE.
    assert (SN : segs_of ps' <> []).
    { destruct ps' as [|q ps]; [congruence|]. cbn [segs_of flat_map]. inversion H2; subst. apply segs_ne in H3. destruct (pg_segs q); [congruence|discriminate]. }
    assert (D2 := delace_done _ _ Hz SN).
    assert (L2 : (0 < length (fst (delace (snd (delace (rs_psize s) (pg_segs p))) (segs_of ps'))))%nat) by (destruct (fst (delace (snd (delace (rs_psize s) (pg_segs p))) (segs_of ps'))); [congruence|cbn; lia]).
    pose proof (read_segs_nostop count (pg_segs p) s (pg_content p ++ bytes_of ps' ++ tail)) as RS.
    pose proof (firstn_nonnil_sum (length (fst (delace (rs_psize s) (pg_segs p)))) (rs_psize s) (pg_segs p)) as Hge. rewrite firstn_all in Hge.
    destruct (delace (rs_psize s) (pg_segs p)) as [l rest] eqn:El. cbn [fst snd] in *.
    rewrite RS; clear RS. 2: right; lia. 2: auto. 2: lia. 2: rewrite !lenN_app; lia.
    cbn [bind]. pose proof (as_bytes_len p) as AL.
    destruct l as [|x l].
    + cbn [rs_psize rs_already rs_content rs_sizes rs_read]. cbn [sumN app] in *. destruct (N.eqb_spec rest 0); cbn [negb].
      * assert (E : lenN (pg_content p) = 0) by lia. apply lenN_0 in E. rewrite E. cbn [app].
        rewrite (IHfuel count ps' (mkR (rs_content s) (rs_sizes s) rest (rs_already s) (rs_read s)) tail); auto; cbn [rs_psize rs_read rs_already length] in *; try lia.
      * rewrite byte_count_ok by lia. cbn [bind]. rewrite read_exact_app by lia. cbn [io bind].
        rewrite (IHfuel count ps' (mkR (rs_content s ++ pg_content p) (rs_sizes s) rest (Some rest) (rs_read s)) tail); auto; cbn [rs_psize rs_read rs_already length a0] in *; try lia.
        cbn [rs_content rs_sizes]. now rewrite app_assoc.
    + cbn [rs_psize rs_already rs_content rs_sizes rs_read]. destruct (Z.eqb_spec count (-1)); [lia|].
      specialize (Hge ltac:(cbn; lia) ltac:(discriminate)).
      remember (sumN (x :: l) - a0 (rs_already s)) as k eqn:Hk.
      destruct (N.eqb_spec rest 0); cbn [negb].
      * assert (k = lenN (pg_content p)) by lia. rewrite takeN_app, dropN_app by auto.
        rewrite (IHfuel count ps' (mkR (rs_content s ++ pg_content p) (rs_sizes s ++ x :: l) rest None (rs_read s + Z.of_nat (length (x :: l)))%Z) tail); auto; cbn [rs_psize rs_read rs_already a0] in *; try lia.
        cbn [rs_content rs_sizes]. now rewrite <- !app_assoc.
      * rewrite byte_count_ok by (cbn; lia). cbn [bind a0]. rewrite dropN_app_le by lia. rewrite takeN_app_le by lia.
        rewrite read_exact_app by (rewrite lenN_dropN; lia). cbn [io bind]. rewrite <- (app_assoc (rs_content s)), takeN_dropN.
        rewrite (IHfuel count ps' (mkR (rs_content s ++ pg_content p) (rs_sizes s ++ x :: l) rest (Some rest) (rs_read s + Z.of_nat (length (x :: l)))%Z) tail); auto; cbn [rs_psize rs_read rs_already a0] in *; try lia.
        cbn [rs_content rs_sizes]. now rewrite <- !app_assoc.
Qed.

(** These pages hold exactly these packets, the last of which ends with the last page. *)
Definition holds (ps : list page) (pk : list bytes) : Prop :=
  Forall page_ok ps /\ delace 0 (segs_of ps) = (map lenN pk, 0) /\ content_of ps = concat pk.
Lemma sum_concat : forall l : list bytes, sumN (map lenN l) = lenN (concat l).
Proof. induction l; cbn [map sumN concat]; auto. rewrite lenN_app, IHl. reflexivity. Qed.
Lemma pk_whole : forall pk, pk_wf (mkPackets (concat pk) (map lenN pk)) /\ pk_abs (mkPackets (concat pk) (map lenN pk)) = pk.
Proof.
  intros. split. unfold pk_wf. cbn [pk_sizes pk_content]. rewrite sum_concat. lia.
  unfold pk_abs. cbn [pk_sizes pk_content]. rewrite <- (app_nil_r (concat pk)). apply cut_map_len.
Qed.
Lemma read_count_exact : forall hp pk tail, holds hp pk -> pk <> [] ->
  read_count (bytes_of hp ++ tail) (Z.of_N (lenN pk)) = Ok (mkPackets (concat pk) (map lenN pk), tail).
Proof.
  intros hp pk tail (OK & D & C) NE. unfold read_count.
  assert (L : (0 < Z.of_N (lenN pk))%Z) by (destruct pk; [congruence|rewrite lenN_cons; lia]).
  destruct (Z.eqb_spec (Z.of_N (lenN pk)) 0); [lia|]. destruct (Z.ltb_spec (Z.of_N (lenN pk)) (-1)); [lia|]. cbn [orb].
  rewrite (read_pages_exact _ (Z.of_N (lenN pk)) hp (mkR [] [] 0 None 0%Z) tail); cbn [rs_psize rs_already rs_read rs_content rs_sizes a0]; auto; try lia.
  - cbn [bind rs_sizes rs_content app]. rewrite D, C. cbn [fst]. rewrite map_length.
    replace (Z.of_nat (length pk)) with (Z.of_N (lenN pk)) by (unfold lenN; lia). rewrite Z.eqb_refl. cbn [negb]. rewrite andb_false_r. reflexivity.
  - rewrite app_length. lia.
  - destruct hp; [|discriminate]. cbn in D. inversion D. destruct pk; [congruence|discriminate].
  - now rewrite D.
  - rewrite D. cbn [fst]. rewrite map_length. unfold lenN. lia.
Qed.

(** ** Writing *)
Lemma bytes_of_app : forall a b, bytes_of (a ++ b) = bytes_of a ++ bytes_of b.
Proof. intros. unfold bytes_of. now rewrite flat_map_app. Qed.
Lemma holds_written : forall pk serial, bytes_ok (concat pk) -> serial < 2 ^ 32 ->
  exists ps, write_to (mkPackets (concat pk) (map lenN pk)) serial 0 FIRST_PAGE = Ok (bytes_of ps, lenN ps) /\ holds ps (filter (@OggPagProof.nonempty N) pk) /\
    Forall (fun p => pg_serial p = serial /\ pg_cksum p = crc_spec (as_bytes (set_cksum 0 p)) /\ bytes_ok (pg_segs p) /\ bytes_ok (pg_content p)) ps /\
    map pg_seq ps = map (fun i => N.of_nat i mod 2 ^ 32) (seq 0 (length ps)) /\
    flags_ok true false true false (map (fun p => (pg_flag p, pg_segs p)) ps) /\
    (forall p, In p ps -> packet_ends_on (pg_segs p) -> pg_abgp p = 0).
Proof.
  intros pk serial B S. destruct (pk_whole pk) as [W A].
  destruct (write_to_spec (mkPackets (concat pk) (map lenN pk)) serial 0 FIRST_PAGE W B S ltac:(lia)) as (pages & E & Ew & Hok).
  rewrite A in E. destruct (paginate_facts pk serial 0 FIRST_PAGE) as (pages' & E' & Ec & Esg & Esm & Esq & Ef & Eab).
  rewrite E in E'. inversion E'; subst pages'. clear E'.
  assert (M1 : content_of (map crc_page pages) = content_of pages) by (unfold content_of; rewrite !flat_map_concat_map, map_map; reflexivity).
  assert (M2 : segs_of (map crc_page pages) = segs_of pages) by (unfold segs_of; rewrite !flat_map_concat_map, map_map; reflexivity).
  exists (map crc_page pages). split. { rewrite Ew. do 2 f_equal. unfold lenN. now rewrite map_length. }
  split. { split; auto. rewrite M1, M2, Esg, Ec, delace_lacing. split; auto. now rewrite concat_filter. }
  assert (CO : Forall (fun p => bytes_ok (pg_content p)) pages) by (apply content_ok; now rewrite Ec).
  split. { apply Forall_map. rewrite Forall_forall in *. intros p I. pose proof (Esm p I) as SM. unfold small_page in SM. cbn [crc_page set_cksum pg_serial pg_cksum pg_segs pg_content]. split; [tauto|]. split; [reflexivity|]. split; [tauto|]. now apply CO. }
  rewrite !map_map, map_length. cbn [crc_page set_cksum pg_seq pg_flag pg_segs]. split; [exact Esq|]. split.
  - exact Ef.
  - intros p I. apply in_map_iff in I as (q & <- & I). cbn [crc_page set_cksum pg_segs pg_abgp]. apply Eab, I.
Qed.

(** The pages that follow, renumbered from [n]. *)
Fixpoint renumber (n : N) (ps : list page) : list page :=
  match ps with [] => [] | p :: ps => crc_page (set_seq n p) :: renumber (n + 1) ps end.
Definition page_bytes_ok (p : page) := bytes_ok (pg_segs p) /\ bytes_ok (pg_content p).
Lemma copy_ok : forall fuel ps n tail e, (length (bytes_of ps) < fuel)%nat -> Forall page_ok ps -> Forall page_bytes_ok ps -> page_read 0 tail = Err e ->
  n + lenN ps <= 2 ^ 32 -> copy_pages fuel n (bytes_of ps ++ tail) = Ok (map as_bytes (renumber n ps)).
Proof.
  induction fuel; intros ps n tail e F O B T L; [lia|]. cbn [copy_pages]. destruct ps as [|p ps].
  - cbn [bytes_of flat_map app renumber map]. now rewrite T.
  - inversion O; inversion B as [|? ? [B1 B2] B3]; subst. cbn [bytes_of flat_map renumber map] in *. fold (bytes_of ps) in *.
    rewrite <- app_assoc, page_read_ok by auto. rewrite lenN_cons in L. destruct (N.ltb_spec U32_MAX n). unfold U32_MAX in *; lia.
    destruct (gen_crc_spec (set_seq n (mkPage 0 (pg_flag p) (pg_abgp p) (pg_serial p) (pg_seq p) (pg_segs p) (pg_cksum p) (pg_content p) (0 + lenN (as_bytes p)))) B1 B2) as [G _].
    { destruct H1 as (X & _). exact X. }
    rewrite G. cbn [opg bind]. rewrite app_length in F. pose proof (as_bytes_len p). rewrite (IHfuel ps (n + 1) tail e) by (auto; lia).
    reflexivity.
Qed.
Lemma renumber_len : forall ps n, lenN (renumber n ps) = lenN ps.
Proof. induction ps; intros; cbn [renumber]; auto. now rewrite !lenN_cons, IHps. Qed.
Lemma renumber_ok : forall ps n, Forall page_ok ps -> Forall page_bytes_ok ps -> n + lenN ps <= 2 ^ 32 -> Forall page_ok (renumber n ps) /\ Forall page_bytes_ok (renumber n ps).
Proof.
  induction ps as [|p ps IH]; intros n O B L; cbn [renumber]; [split; constructor|]. inversion O; inversion B as [|? ? [B1 B2] B3]; subst. rewrite lenN_cons in L.
  destruct (IH (n + 1)) as [I1 I2]; auto; try lia. destruct (gen_crc_spec (set_seq n p) B1 B2) as [_ G]. { destruct H1 as (X & _). exact X. }
  split; constructor; auto; [|split; auto]. destruct H1 as (P1 & P2 & P3 & P4 & P5 & P6 & P7). unfold page_ok, fields_ok, fields in *.
  cbn [crc_page set_cksum set_seq pg_flag pg_abgp pg_serial pg_seq pg_cksum pg_segs pg_content f_flag f_abgp f_serial f_seq f_cksum f_segs f_content] in *. repeat split; auto; lia.
Qed.
Lemma renumber_twice : forall ps n, renumber n (renumber n ps) = renumber n ps.
Proof. induction ps; intros; cbn [renumber]; auto. rewrite IHps. reflexivity. Qed.

Lemma appends_ok : forall l d, apply_log d (appends (lenN d) l) = d ++ concat l.
Proof.
  induction l as [|b l IH]; intros d; cbn [appends concat]. now rewrite app_nil_r. unfold apply_log in *. cbn [fold_left apply_op].
  rewrite write_end. rewrite <- lenN_app, IH, <- app_assoc. reflexivity.
Qed.
Lemma trunc_appends : forall d l, apply_log d (OpTrunc 0 :: appends 0 l) = concat l.
Proof.
  intros. unfold apply_log. cbn [fold_left apply_op]. assert (E : set_len 0 d = []).
  { unfold set_len. rewrite takeN_0. replace (0 - lenN d) with 0 by lia. reflexivity. }
  rewrite E. exact (appends_ok l []).
Qed.
Lemma concat_bytes : forall ps, concat (map as_bytes ps) = bytes_of ps.
Proof. intros. unfold bytes_of. now rewrite flat_map_concat_map. Qed.

(** The first page gives the serial number. *)
Lemma first_header : forall hp pk tail, holds hp pk -> pk <> [] -> exists p hp', hp = p :: hp' /\ page_ok p /\
  header_read 0 (bytes_of hp ++ tail) = Ok (mkPage 0 (pg_flag p) (pg_abgp p) (pg_serial p) (pg_seq p) (pg_segs p) (pg_cksum p) [] 0, pg_content p ++ bytes_of hp' ++ tail).
Proof.
  intros hp pk tail (O & D & _) NE. destruct hp as [|p hp]. { cbn in D. inversion D. destruct pk; [congruence|discriminate]. }
  inversion O; subst. exists p, hp. split; auto. split; auto. cbn [bytes_of flat_map]. fold (bytes_of hp). rewrite <- app_assoc. now apply header_read_ok.
Qed.
Lemma bytes_pages : forall ps, Forall page_ok ps -> bytes_ok (bytes_of ps) -> Forall page_bytes_ok ps.
Proof.
  induction 1; cbn [bytes_of flat_map]; intro B; constructor; apply bytes_ok_app in B as [B1 B2]; auto.
  unfold as_bytes in B1. split; repeat (apply bytes_ok_app in B1 as [? B1] || idtac); auto.
Qed.
