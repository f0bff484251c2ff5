(** Forms of items that other programs write, and tags in several places. *)
From Verif Require Import Base BaseLemmas Str StrLemmas TextModel TextSpec TextProof Mode PictureModel FileModel Mp4Model Mp4WriteModel Mp4Spec Mp4Proof Mp4Proof2 Mp4Proof3 Mp4Proof4 Mp4Proof5 Mp4Proof6 Mp4Proof7 Mp4Proof8 Mp4Proof9 Mp4Ex Mp4Thm.
From Verif Require Id3v1Model.

(** One item with values of any kind *)
Definition raw_item (f : bytes) (vs : list (N * bytes)) : bytes := sbox f (flat_map dbox vs).
Lemma raw_item_box : forall f vs, raw_item f vs = item_box (mkAtom (Fourcc f) (map unknown_of vs)).
Proof. intros. unfold raw_item, item_box. cbn [at_ident at_data]. rewrite map_map. f_equal. f_equal. induction vs as [|[t c] vs]; cbn [map]; [reflexivity|]. now rewrite <- IHvs. Qed.
Lemma one_item : forall o f vs, box_id f -> f <> $"----" -> Forall dbox_ok vs -> lenN (raw_item f vs) < 2 ^ 32 ->
  exists r' r'', next (raw_item f vs) (mo_mode o) (atom_reader (raw_item f vs)) = Ok (Some (mkAi 0 (lenN (raw_item f vs)) false (Fourcc f)), r') /\
    parse_data_inner (raw_item f vs) (mo_mode o) (mkAi 0 (lenN (raw_item f vs)) false (Fourcc f)) r' = Ok (filter nonempty_value vs, r'') /\
    forall n tag gs, ilst_loop (S n) (raw_item f vs) o r'' tag gs = Ok (tag, gs).
Proof.
  intros o f vs HF HN HV HL. set (a := mkAtom (Fourcc f) (map unknown_of vs)).
  pose proof (raw_item_box f vs) as EQ. fold a in EQ.
  assert (IN : inside (raw_item f vs) (atom_reader (raw_item f vs)) (item_box a ++ [])) by (rewrite <- EQ, app_nil_r; apply inside_start).
  assert (SZ : lenN (item_box a) < 2 ^ 32) by now rewrite <- EQ.
  destruct (next_item _ _ (mo_mode o) a [] IN (conj HF HN) SZ) as (r' & E & HI' & HA & HE).
  assert (V : vals a = flat_map dbox vs).
  { unfold vals, a. cbn [at_data]. rewrite map_map. f_equal. clear. induction vs as [|[t c] vs]; cbn [map]; [reflexivity|]. now rewrite IHvs. }
  rewrite V in *. exists r', (adv (lenN (flat_map dbox vs)) r'). rewrite EQ at 3. split; [exact E|]. split.
  - apply (parse_data_inner_boxes _ _ _ _ _ []); auto. cbn [a_start a_len]. rewrite EQ at 1. exact HE.
  - intros. cbn [ilst_loop]. rewrite inside_end; [reflexivity|]. rewrite HA. eapply inside_adv; [exact IN|reflexivity].
Qed.

(** * C151: items of other programs *)
(** Flags are true if any byte of the value is not 0, whatever its type and length *)
Theorem C151_flag : forall o f t d, In f FLAGS -> dbox_ok (t, d) -> lenN d + 24 < 2 ^ 32 -> d <> [] ->
  exists b, parse_ilst o (raw_item f [(t, d)]) = Ok [mkAtom (Fourcc f) [ABool b]] /\ (b = true <-> exists x, In x d /\ x <> 0).
Proof.
  intros o f t d HF HD HL NE. exists (existsb (fun b => negb (b =? 0)) d). split.
  - assert (I : box_id f /\ f <> $"----").
    { cbn [In FLAGS] in HF. destruct HF as [<-|[<-|[<-|[<-|[<-|[]]]]]]; (split; [idok|idne]). }
    assert (L : lenN (raw_item f [(t, d)]) < 2 ^ 32) by (unfold raw_item; rewrite lenN_sbox by apply I; cbn [flat_map]; rewrite app_nil_r, len_dbox; cbn [snd]; lia).
    destruct (one_item o f [(t, d)] (proj1 I) (proj2 I)) as (r' & r'' & E & P & Q); auto.
    assert (LN : exists n, length (raw_item f [(t, d)]) = S n).
    { destruct (length (raw_item f [(t, d)])) eqn:Z; [|eauto]. exfalso. assert (lenN (raw_item f [(t, d)]) = 0) by (unfold lenN; rewrite Z; reflexivity). unfold raw_item in H. rewrite lenN_sbox in H by apply I. lia. }
    destruct LN as [n LN]. unfold parse_ilst. rewrite LN. set (c := raw_item f [(t, d)]) in *.
    remember (S n) as k. cbn [ilst_loop]. subst k. rewrite E. cbn [a_ident a_ext a_len].
    assert (F : forall g, ~ In g FLAGS -> is_fourcc g (Fourcc f) = false).
    { intros g G. cbn [is_fourcc]. apply list_eqb_neq. intros ->. now apply G. }
    rewrite !F by (cbn [In FLAGS]; vm_compute; intuition discriminate). cbn [orb]. rewrite flag_in by auto. rewrite P. cbn [bind filter].
    replace (nonempty_value (t, d)) with true by (destruct d; [congruence|reflexivity]). cbn [snd]. rewrite Q. reflexivity.
  - rewrite existsb_exists. split; intros (x & X & Y); exists x; (split; [exact X|]); destruct (N.eqb_spec x 0); subst; try easy; cbn in Y; congruence.
Qed.
Print Assumptions C151_flag.
Example C151_flag_ex : parse_ilst o_all (raw_item ($"cpil") [(21, [0; 0; 2])]) = Ok [mkAtom (Fourcc ($"cpil")) [ABool true]] /\
  parse_ilst o_all (raw_item ($"pgap") [(0, [0; 0])]) = Ok [mkAtom (Fourcc ($"pgap")) [ABool false]].
Proof. split; vm_compute; reflexivity. Qed.

(** A number genre counts from 1 in the list of ID3v1 *)
Definition genre_values (ns : list N) : list (N * bytes) := map (fun n => (0, [0; n])) ns.
Definition genre_name (n : N) : str := nth (N.to_nat n - 1) Id3v1Model.GENRES [].
Lemma gnre_genre_spec : forall n, 1 <= n <= 192 -> gnre_genre (0, [0; n]) = [AUtf8 (genre_name n)].
Proof.
  intros n H. unfold gnre_genre. cbn [snd]. change (lenN Id3v1Model.GENRES) with 192. replace (0 <? n) with true by lia. replace (n <=? 192) with true by lia. cbn [andb].
  unfold genre_name. replace (N.to_nat (n - 1)) with (N.to_nat n - 1)%nat by lia.
  assert (L : (N.to_nat n - 1 < length Id3v1Model.GENRES)%nat) by (change (length Id3v1Model.GENRES) with (N.to_nat 192); lia).
  rewrite (nth_error_nth' _ [] L). reflexivity.
Qed.
Theorem C151_genre : forall o ns, mo_implicit o = true -> ns <> [] -> Forall (fun n => 1 <= n <= 192) ns -> lenN ns < 2 ^ 24 ->
  parse_ilst o (raw_item ($"gnre") (genre_values ns)) = Ok [mkAtom (Fourcc (0xA9 :: $"gen")) (map (fun n => AUtf8 (genre_name n)) ns)].
Proof.
  intros o ns HI NE HN HL. set (vs := genre_values ns).
  assert (LV : forall ns, lenN (flat_map dbox (genre_values ns)) = 18 * lenN ns).
  { clear. induction ns; [reflexivity|]. unfold genre_values in *. cbn [map flat_map]. rewrite lenN_app, len_dbox, IHns, lenN_cons. cbn [snd]. change (lenN [0; a]) with 2. lia. }
  assert (LR : lenN (raw_item ($"gnre") vs) = 8 + 18 * lenN ns) by (unfold raw_item; rewrite lenN_sbox by reflexivity; unfold vs; now rewrite LV).
  destruct (one_item o ($"gnre") vs) as (r' & r'' & E & P & Q); [idok|idne| |rewrite LR; change (2 ^ 24) with 16777216 in HL; lia|].
  { unfold vs, genre_values. apply Forall_map. apply Forall_forall. intros x _. split; cbn [fst snd]; [reflexivity|]. change (lenN [0; x]) with 2. lia. }
  assert (LN : exists n, length (raw_item ($"gnre") vs) = S n).
  { destruct (length (raw_item ($"gnre") vs)) eqn:Z; [|eauto]. exfalso. unfold lenN in LR at 1. rewrite Z in LR. lia. }
  destruct LN as [n LN]. unfold parse_ilst. rewrite LN. set (c := raw_item ($"gnre") vs) in *. remember (S n) as k. cbn [ilst_loop]. subst k. rewrite E. cbn [a_ident a_ext a_len].
  change (is_fourcc ($"free") (Fourcc ($"gnre")) || is_fourcc ($"skip") (Fourcc ($"gnre"))) with false.
  change (is_fourcc ($"covr") (Fourcc ($"gnre"))) with false. change (is_fourcc ($"gnre") (Fourcc ($"gnre"))) with true. cbv iota.
  rewrite P. cbn [bind]. rewrite HI. rewrite Q. cbn [bind app].
  assert (F : filter nonempty_value vs = vs) by (unfold vs, genre_values; clear; induction ns; cbn [map filter]; [reflexivity|]; cbn [nonempty_value snd]; now rewrite IHns).
  rewrite F.
  assert (G : flat_map gnre_genre vs = map (fun n => AUtf8 (genre_name n)) ns).
  { unfold vs, genre_values. clear - HN. induction HN as [|n ns H HN IH]; cbn [map flat_map]; [reflexivity|]. rewrite gnre_genre_spec by exact H. now rewrite IH. }
  rewrite G. destruct ns; [congruence|]. cbn [map]. reflexivity.
Qed.
Print Assumptions C151_genre.
Example C151_genre_ex : parse_ilst o_all (raw_item ($"gnre") (genre_values [1; 18])) = Ok [mkAtom (Fourcc (0xA9 :: $"gen")) [AUtf8 ($"Blues"); AUtf8 ($"Rock")]].
Proof. vm_compute. reflexivity. Qed.
(** Only the second byte counts: genre 257 is read as genre 1 *)
Theorem C151_genre_high_refuted : forall h n, gnre_genre (0, [h; n]) = gnre_genre (0, [0; n]).
Proof. reflexivity. Qed.
Print Assumptions C151_genre_high_refuted.
Example C151_genre_high_ex : parse_ilst o_all (raw_item ($"gnre") [(0, be_enc 2 257)]) = Ok [mkAtom (Fourcc (0xA9 :: $"gen")) [AUtf8 ($"Blues")]].
Proof. vm_compute. reflexivity. Qed.

(** A freeform item whose names do not fit in it is not read, and ends the list *)
Lemma chunk_short : forall data m r name s rest size, inside data r (sbox name ([0; 0; 0; 0] ++ utf8_enc s) ++ rest) ->
  box_id name -> 12 + lenN (utf8_enc s) < 2 ^ 32 -> size < 12 + lenN (utf8_enc s) ->
  exists e, freeform_chunk data name size m r = Err e.
Proof.
  intros data m r name s rest size HI HN HL HS. unfold freeform_chunk.
  assert (L : 8 + lenN ([0; 0; 0; 0] ++ utf8_enc s) = 12 + lenN (utf8_enc s)) by (rewrite lenN_app; change (lenN [0; 0; 0; 0]) with 4; lia).
  assert (A : avail 8 r). { rewrite sbox_head, <- app_assoc in HI. eapply inside_avail; [exact HI|]. apply head_len, HN. }
  assert (S : sees data r (be_enc 4 (12 + lenN (utf8_enc s)) ++ name ++ ([0; 0; 0; 0] ++ utf8_enc s) ++ rest)).
  { destruct HI as [HI _]. unfold sbox in HI. rewrite L, <- !app_assoc in HI. rewrite <- app_assoc. exact HI. }
  destruct (N.le_gt_cases (12 + lenN (utf8_enc s)) (size + 8)) as [LE|GT].
  - rewrite (read_head_box _ _ _ _ _ size m S HN) by (auto; lia). cbn [bind h_id h_len]. rewrite list_eqb_refl. cbn [negb].
    replace (12 + lenN (utf8_enc s) <? 12) with false by lia. replace (size <? 12 + lenN (utf8_enc s)) with true by lia. eauto.
  - assert (A4 : avail 4 r) by (eapply avail_le; [|exact A]; lia). unfold read_head. rewrite (rd_be_app _ _ _ _ _ _ S) by first [reflexivity | exact HL | exact A4]. cbn [bind].
    assert (S2 : sees data (adv 4 r) (name ++ ([0; 0; 0; 0] ++ utf8_enc s) ++ rest)) by (eapply sees_adv; [exact S|apply be_enc_len]).
    rewrite (rd_exact_app _ _ _ _ 4 S2) by (try apply HN; apply avail_adv; exact A). cbn [bind]. rewrite ident_bytes_ok by exact HN. cbn [negb].
    replace (12 + lenN (utf8_enc s) =? 0) with false by lia. replace (12 + lenN (utf8_enc s) =? 1) with false by lia. cbn [bind].
    replace (12 + lenN (utf8_enc s) <? 8) with false by lia. replace (size <? 12 + lenN (utf8_enc s) - 8) with true by lia.
    destruct (_ || _); cbn [bind]; eauto.
Qed.
Theorem C151_name_overrun : forall o mean name len rest, text_ok mean -> text_ok name -> 2 <= len < 32 + lenN (utf8_enc mean) + lenN (utf8_enc name) ->
  lenN (utf8_enc mean) + lenN (utf8_enc name) + 32 < 2 ^ 32 ->
  parse_ilst o (be_enc 4 len ++ $"----" ++ name_boxes mean name ++ rest) = Ok [].
Proof.
  intros o mean name len rest H1 H2 HL HB. set (c := be_enc 4 len ++ $"----" ++ name_boxes mean name ++ rest).
  assert (LC : lenN c = 32 + lenN (utf8_enc mean) + lenN (utf8_enc name) + lenN rest).
  { unfold c. rewrite !lenN_app, be_enc_len, len_name_boxes. change (lenN ($"----")) with 4. lia. }
  assert (NX : exists e, next c (mo_mode o) (atom_reader c) = Err e).
  { unfold next. cbn [atom_reader r_bound b_rem]. rewrite LC. replace (_ =? 0) with false by lia. replace (_ <? 8) with false by lia.
    assert (S : sees c (atom_reader c) (be_enc 4 len ++ $"----" ++ name_boxes mean name ++ rest)) by (unfold sees; apply dropN_0).
    assert (A : avail 8 (atom_reader c)) by (unfold avail; cbn [atom_reader r_bound b_rem]; lia).
    destruct (N.lt_ge_cases len 8) as [LT|GE].
    - assert (A4 : avail 4 (atom_reader c)) by (eapply avail_le; [|exact A]; lia). unfold read_info, read_head. rewrite (rd_be_app _ _ _ _ _ _ S) by first [reflexivity | exact A4 | change (256 ^ 4) with (2 ^ 32); lia]. cbn [bind].
      assert (S2 : sees c (adv 4 (atom_reader c)) ($"----" ++ name_boxes mean name ++ rest)) by (eapply sees_adv; [exact S|apply be_enc_len]).
      rewrite (rd_exact_app _ _ _ _ 4 S2) by (try reflexivity; apply avail_adv; exact A). cbn [bind].
      change (negb (forallb valid_ident_byte ($"----"))) with false. cbv iota.
      replace (len =? 0) with false by lia. replace (len =? 1) with false by lia. cbn [bind]. replace (len <? 8) with true by lia. cbn [bind]. eauto.
    - unfold read_info. rewrite (read_head_box _ _ _ _ _ _ (mo_mode o) S) by (auto; try idok; lia). cbn [bind h_id h_len h_start h_ext].
      rewrite list_eqb_refl. replace (_ <? 8) with false by lia. replace (_ <? 8) with false by lia.
      assert (I : inside c (adv 8 (atom_reader c)) (name_boxes mean name ++ rest)).
      { replace 8 with (lenN (be_enc 4 len ++ $"----")) by (rewrite lenN_app, be_enc_len; reflexivity). eapply inside_adv; [|reflexivity]. rewrite <- app_assoc. apply inside_start. }
      unfold parse_freeform. destruct (len - 8 <? 24); [cbn [bind]; eauto|].
      unfold name_boxes in I. rewrite <- app_assoc in I. assert (J1 : box_id ($"mean")) by idok. assert (J2 : box_id ($"name")) by idok.
      destruct (N.le_gt_cases (12 + lenN (utf8_enc mean)) (len - 8)) as [LE|GT].
      + rewrite (freeform_chunk_box _ _ _ _ _ _ _ I) by (auto; lia). cbn [bind].
        apply inside_adv with (n := 12 + lenN (utf8_enc mean)) in I; [|rewrite lenN_sbox, lenN_app by reflexivity; change (lenN [0; 0; 0; 0]) with 4; lia].
        destruct (chunk_short _ (mo_mode o) _ _ _ _ (len - 8 - (12 + lenN (utf8_enc mean))) I J2) as (e & ->); [lia|lia|cbn [bind]; eauto].
      + destruct (chunk_short _ (mo_mode o) _ _ _ _ (len - 8) I J1) as (e & ->); [lia|lia|cbn [bind]; eauto]. }
  destruct NX as (e & NX). unfold parse_ilst. cbn [ilst_loop]. rewrite NX. reflexivity.
Qed.
Print Assumptions C151_name_overrun.
Example C151_name_ex : parse_ilst o_all (be_enc 4 30 ++ $"----" ++ name_boxes ($"m") ($"n") ++ dbox (1, $"x")) = Ok [] /\
  parse_ilst o_all (be_enc 4 51 ++ $"----" ++ name_boxes ($"m") ($"n") ++ dbox (1, $"x")) = Ok [mkAtom (Freeform ($"m") ($"n")) [AUtf8 ($"x")]].
Proof. split; vm_compute; reflexivity. Qed.

(** * C152: tags in several [udta] atoms are one tag
    Values under a name that is already there are added to it. *)
Fixpoint with_item (l : list atom) (a : atom) : list atom :=
  match l with
  | [] => [a]
  | b :: l => if ident_eqb (at_ident b) (at_ident a) then mkAtom (at_ident b) (at_data b ++ at_data a) :: l else b :: with_item l a
  end.
Lemma ident_eqb_eq : forall i j, ident_eqb i j = true -> i = j.
Proof.
  intros [f|m n] [g|m' n'] H; cbn in H; try discriminate; [apply list_eqb_eq in H; now subst|].
  apply andb_prop in H. destruct H as [H1 H2]. apply list_eqb_eq in H1, H2. now subst.
Qed.
Lemma ident_eqb_refl : forall i, ident_eqb i i = true.
Proof. intros [f|m n]; cbn; rewrite ?list_eqb_refl; reflexivity. Qed.
Lemma push_with : forall a l, at_data a <> [] -> insert_or_push (at_ident a) (at_data a) l = with_item l a.
Proof.
  intros [i ds] l H. cbn [at_ident at_data] in *. unfold insert_or_push. induction l as [|b l]; cbn [push_data with_item at_ident at_data]; [reflexivity|].
  destruct (ident_eqb (at_ident b) i); [reflexivity|]. destruct (push_data i ds l); rewrite <- IHl; reflexivity.
Qed.
Lemma with_twice : forall i x y l, with_item (with_item l (mkAtom i x)) (mkAtom i y) = with_item l (mkAtom i (x ++ y)).
Proof.
  intros. induction l as [|b l]; cbn [with_item at_ident at_data].
  - rewrite ident_eqb_refl. reflexivity.
  - destruct (ident_eqb (at_ident b) i) eqn:E; cbn [with_item at_ident at_data]; rewrite E; [now rewrite <- app_assoc|now rewrite IHl].
Qed.
Lemma covr_pushes : forall ds l, Forall pic_value ds -> ds <> [] ->
  fold_left (fun l d => match d with APic p => insert_picture p l | _ => l end) ds l = with_item l (mkAtom covr_ident ds).
Proof.
  intros ds l H. revert l. induction H as [|d ds P H IH]; intros l NE; [congruence|]. cbn [fold_left]. destruct d; try contradiction P.
  destruct P as (P1 & P2 & _). assert (Q : as_other p = p) by (destruct p; cbn in *; subst; reflexivity).
  unfold insert_picture at 2. rewrite Q. rewrite (push_with (mkAtom covr_ident [APic p])) by discriminate.
  destruct ds as [|d ds]; [reflexivity|]. rewrite IH by discriminate. now rewrite with_twice.
Qed.
Lemma insert_with : forall a l, atom_ok a -> ilst_insert a l = with_item l a.
Proof.
  intros [i ds] l (HI & HD & HV). unfold ilst_insert. cbn [at_ident at_data] in *. destruct (ident_eqb i covr_ident) eqn:E; cbn [andb].
  - apply ident_eqb_eq in E. subst i. inversion HV as [ds' P|?|?|f b I|i' ds' P N]; subst.
    + destruct (forallb is_pic ds); [now apply covr_pushes|]. now apply (push_with (mkAtom covr_ident ds)).
    + cbn [In FLAGS] in I. decompose [or] I; try contradiction; discriminate.
    + exfalso. eapply N; [reflexivity|]. cbn; tauto.
  - now apply (push_with (mkAtom i ds)).
Qed.
Lemma fold_with : forall l old, Forall atom_ok l -> fold_left (fun l a => ilst_insert a l) l old = fold_left with_item l old.
Proof. intros l old H. revert old. induction H; intros old; cbn [fold_left]; [reflexivity|]. now rewrite insert_with, IHForall. Qed.
Definition udta_of (u1 : list box) (vers : bytes) (a : list box) (c : bytes) (b u2 : list box) : box :=
  node ($"udta") (u1 ++ [leaf ($"meta") (vers ++ encs (a ++ leaf ($"ilst") c :: b))] ++ u2).
(** The tag is found where it is looked for and what follows it in the atom is passed over *)
Definition udta_plain (u1 : list box) (vers : bytes) (a : list box) (c : bytes) (b u2 : list box) : Prop :=
  none_named ($"meta") u1 /\ Forall item_ok (a ++ leaf ($"ilst") c :: b) /\ meta_start vers (a ++ leaf ($"ilst") c :: b) /\
  none_named ($"ilst") a /\ Forall boring b /\ Forall boring u2.
Definition merged (il : option (list atom)) (l : list atom) : list atom :=
  match il with None => l | Some old => fold_left (fun l a => ilst_insert a l) l old end.
Lemma node_parts : forall id ks, box_ok (node id ks) -> Forall box_ok ks.
Proof.
  intros id ks H. unfold node in H. cbn [box_ok] in H. destruct H as (_ & _ & _ & H). induction ks; constructor; tauto.
Qed.
Lemma parse_udta : forall data o u1 vers a c b u2 x rest fuel r tr il,
  mo_tags o = true -> udta_plain u1 vers a c b u2 -> box_ok (udta_of u1 vers a c b u2) ->
  within data r (enc (udta_of u1 vers a c b u2) ++ x) rest -> (forall bd, r_bound r = Some bd -> b_rem bd < 2 ^ 32) ->
  lenN (enc (udta_of u1 vers a c b u2)) < N.of_nat fuel ->
  exists fuel', moov_parse fuel data o r tr il =
    (let? l := parse_ilst o c in moov_parse fuel' data o (adv (lenN (enc (udta_of u1 vers a c b u2))) r) tr (Some (merged il l))) /\
    N.of_nat fuel <= N.of_nat fuel' + lenN (enc (udta_of u1 vers a c b u2)).
Proof.
  intros data o u1 vers a c b u2 x rest fuel r tr il HT (N1 & HI & HS & N2 & B1 & B2) HO HW HB HF.
  set (kids := a ++ leaf ($"ilst") c :: b) in *. set (M := 8 + lenN (vers ++ encs kids)).
  set (ks := u1 ++ [leaf ($"meta") (vers ++ encs kids)] ++ u2).
  assert (EU : udta_of u1 vers a c b u2 = Node (8 + lenN (encs ks)) ($"udta") ks) by reflexivity.
  pose proof (node_parts _ _ HO) as HK. apply Forall_app in HK. destruct HK as [HU1 HK]. apply Forall_cons_iff in HK. destruct HK as [HM HU2].
  pose proof (box_ok_hd _ HO) as HD. set (U := udta_of u1 vers a c b u2) in *.
  assert (LU : lenN (enc U) = 8 + lenN (encs ks)) by (rewrite EU; cbn [enc]; apply lenN_hd; reflexivity).
  assert (LM : lenN (enc (Leaf M ($"meta") (vers ++ encs kids))) = M) by (cbn [enc]; unfold M; apply lenN_hd; reflexivity).
  assert (LK : lenN (encs ks) = lenN (encs u1) + M + lenN (encs u2)).
  { unfold ks. rewrite !encs_app, !lenN_app, encs_one. change (leaf ($"meta") (vers ++ encs kids)) with (Leaf M ($"meta") (vers ++ encs kids)). rewrite LM. lia. }
  assert (LI : lenN (encs kids) = lenN (encs a) + (8 + lenN c) + lenN (encs b)).
  { unfold kids. rewrite encs_app, encs_cons, !lenN_app. unfold leaf. cbn [enc]. rewrite lenN_hd by reflexivity. lia. }
  assert (HKI : Forall hd_ok kids) by (eapply Forall_impl; [|exact HI]; apply item_ok_hd).
  destruct fuel as [|fuel]; [lia|].
  assert (W1 : within data (adv 8 r) (encs u1 ++ enc (Leaf M ($"meta") (vers ++ encs kids)) ++ encs u2 ++ x) rest).
  { eapply within_adv with (a := be_enc 4 (8 + lenN (encs ks)) ++ $"udta"); [|rewrite lenN_app, be4_len; reflexivity].
    rewrite EU in HW. cbn [enc] in HW. fold (encs ks) in HW. unfold ks at 2 in HW. rewrite !encs_app, encs_one in HW. now rewrite <- !app_assoc in *. }
  destruct (udta_tag data o u1 M vers a (8 + lenN c) c b (encs u2 ++ x) rest (lenN (encs u1) + M + lenN (encs u2)) (adv 8 r)) as (r' & E' & W' & EQ); auto.
  { now apply Forall_hd. }
  { now apply box_ok_hd. }
  { unfold M. rewrite lenN_app, LI. lia. }
  { intros bd EB. unfold adv in EB. cbn [r_bound] in EB. destruct (r_bound r) as [b0|] eqn:RB; cbn in EB; [|discriminate]. inversion EB; subst bd. cbn [b_rem]. specialize (HB b0 eq_refl). lia. }
  assert (HH : Forall hd_ok (b ++ u2)).
  { apply Forall_app. split; [|now apply Forall_hd]. unfold kids in HKI. apply Forall_app in HKI. destruct HKI as [_ HKI]. apply Forall_cons_iff in HKI. tauto. }
  assert (HBB : Forall boring (b ++ u2)) by (apply Forall_app; auto).
  pose proof (boxes_len _ HH) as LH. rewrite encs_app, !lenN_app in LH.
  assert (LMM : M = 8 + (lenN vers + (lenN (encs a) + (8 + lenN c) + lenN (encs b)))) by (unfold M; rewrite lenN_app, LI; reflexivity).
  assert (FU : (length (b ++ u2) < fuel)%nat) by (rewrite app_length; unfold lenN in LH at 1 2; lia).
  exists (fuel - length (b ++ u2))%nat. split.
  - cbn [moov_parse]. rewrite (within_next _ _ _ _ _ _ HW HD). cbn [a_ident a_len]. rewrite LU. rewrite EU. cbn [box_name].
    rewrite is_fourcc_neq by discriminate. cbn [andb]. rewrite is_fourcc_refl, HT. cbn [andb].
    replace (8 + lenN (encs ks) - 8) with (lenN (encs u1) + M + lenN (encs u2)) by lia. rewrite EQ.
    destruct (parse_ilst o c) as [l|e|]; cbn [bind]; [|reflexivity|reflexivity].
    rewrite (parse_boring data o (b ++ u2) fuel r' x rest) by (auto; try (rewrite encs_app, <- app_assoc; exact W'); lia).
    rewrite E'. rewrite !adv_adv. rewrite encs_app, lenN_app.
    match goal with |- context [adv (8 + (?y + ?z)) r] => replace (8 + (y + z)) with (8 + lenN (encs ks)) by lia end.
    unfold merged. destruct il; reflexivity.
  - rewrite app_length in *. unfold lenN in LH at 1 2. lia.
Qed.
Lemma bound_adv : forall n r, (forall bd, r_bound r = Some bd -> b_rem bd < 2 ^ 32) -> forall bd, r_bound (adv n r) = Some bd -> b_rem bd < 2 ^ 32.
Proof.
  intros n r HB bd EB. unfold adv in EB. cbn [r_bound] in EB. destruct (r_bound r) as [b0|] eqn:RB; cbn in EB; [|discriminate]. inversion EB; subst bd. cbn [b_rem]. specialize (HB b0 eq_refl). lia.
Qed.
Theorem C152_merged : forall o pre k1 u1 vers a l1 b u2 k2 v1 vers' a' l2 b' v2 k3 post, mo_tags o = true ->
  let c1 := flat_map item_box l1 in let c2 := flat_map item_box l2 in
  let top := pre ++ node ($"moov") (k1 ++ udta_of u1 vers a c1 b u2 :: k2 ++ udta_of v1 vers' a' c2 b' v2 :: k3) :: post in
  boxes_ok top -> ftyp_first top -> none_named ($"moov") pre ->
  none_named ($"udta") (k1 ++ k2 ++ k3) -> quiet o (k1 ++ k2 ++ k3) ->
  udta_plain u1 vers a c1 b u2 -> udta_plain v1 vers' a' c2 b' v2 ->
  Forall (fun a => atom_ok a /\ Forall dbox_ok (map coded (at_data a)) /\ lenN (item_box a) < 2 ^ 32) (l1 ++ l2) -> Forall (kept o) (l1 ++ l2) ->
  exists brand tr, mp4_read (encs top) o = Ok (brand, tr, Some (fold_left with_item l2 l1)).
Proof.
  intros o pre k1 u1 vers a l1 b u2 k2 v1 vers' a' l2 b' v2 k3 post HT c1 c2 top HO HF N1 N2 HQ P1 P2 HA HK.
  set (U1 := udta_of u1 vers a c1 b u2) in *. set (U2 := udta_of v1 vers' a' c2 b' v2) in *. set (ks := k1 ++ U1 :: k2 ++ U2 :: k3) in *.
  destruct (moov_start top pre (8 + lenN (encs ks)) ks post (mo_mode o) HO HF eq_refl N1) as (brand & r1 & V & r2 & MF & W).
  set (r3 := reset_bounds (lenN (encs pre) + 8) (lenN (encs ks)) r2) in *.
  assert (HM : box_ok (node ($"moov") ks)) by (unfold top, boxes_ok in HO; apply Forall_app in HO; destruct HO as [_ HO]; apply Forall_cons_iff in HO; tauto).
  pose proof (node_parts _ _ HM) as HKS. unfold ks in HKS. apply Forall_app in HKS. destruct HKS as [HK1 HKS]. apply Forall_cons_iff in HKS. destruct HKS as [HU1 HKS].
  apply Forall_app in HKS. destruct HKS as [HK2 HKS]. apply Forall_cons_iff in HKS. destruct HKS as [HU2 HK3].
  assert (LEM : lenN (enc (node ($"moov") ks)) = 8 + lenN (encs ks)) by (unfold node; cbn [enc]; apply lenN_hd; reflexivity).
  assert (LS : 8 + lenN (encs ks) < 2 ^ 32) by (unfold node in HM; cbn [box_ok] in HM; unfold encs in *; tauto).
  assert (BD : forall bd, r_bound r3 = Some bd -> b_rem bd < 2 ^ 32) by (intros bd EB; unfold r3, reset_bounds in EB; cbn in EB; inversion EB; subst bd; cbn [b_rem]; lia).
  assert (NN : none_named ($"udta") k1 /\ none_named ($"udta") k2 /\ none_named ($"udta") k3) by (unfold none_named in *; rewrite !Forall_app in N2; tauto).
  assert (QQ : quiet o k1 /\ quiet o k2 /\ quiet o k3).
  { destruct (quiet_app _ _ _ HQ) as [? HQ']. destruct (quiet_app _ _ _ HQ') as [? ?]. auto. }
  destruct NN as (NN1 & NN2 & NN3). destruct QQ as (Q1 & Q2 & Q3).
  apply Forall_app in HA. destruct HA as [HA1 HA2]. apply Forall_app in HK. destruct HK as [KK1 KK2].
  assert (PC1 : parse_ilst o c1 = Ok l1) by now apply parse_items.
  assert (PC2 : parse_ilst o c2 = Ok l2) by now apply parse_items.
  assert (AO2 : Forall atom_ok l2) by (eapply Forall_impl; [|exact HA2]; cbn; tauto).
  unfold mp4_read. rewrite V. cbn [bind]. unfold node in LEM. rewrite MF. cbn [bind a_start a_len]. rewrite LEM. replace (8 + lenN (encs ks) - 8) with (lenN (encs ks)) by lia. fold r3.
  assert (EKS : encs ks = encs k1 ++ enc U1 ++ encs k2 ++ enc U2 ++ encs k3) by (unfold ks; rewrite encs_app, encs_cons, encs_app, encs_cons; reflexivity).
  pose proof (within_len _ _ _ _ W) as LD. rewrite EKS in LD, W. rewrite !lenN_app in LD.
  destruct (parse_quiet (encs top) o k1 (Datatypes.S (length (encs top))) r3 _ _ [] None W HK1 Q1 NN1) as (tr & fuel & EP & FP).
  { unfold lenN in *. lia. }
  rewrite EP. clear EP. apply within_adv with (n := lenN (encs k1)) in W; [|reflexivity].
  destruct (parse_udta (encs top) o u1 vers a c1 b u2 _ _ fuel _ tr None HT P1 HU1 W) as (f2 & -> & F2).
  { now apply bound_adv. } { fold U1. unfold lenN in *. lia. }
  rewrite PC1. cbn [bind merged]. fold U1. fold U1 in F2. apply within_adv with (n := lenN (enc U1)) in W; [|reflexivity]. rewrite adv_adv in *.
  destruct (parse_quiet (encs top) o k2 f2 _ _ _ tr (Some l1) W HK2 Q2 NN2) as (tr2 & f3 & -> & F3).
  { unfold lenN in *. lia. }
  apply within_adv with (n := lenN (encs k2)) in W; [|reflexivity]. rewrite adv_adv in *.
  destruct (parse_udta (encs top) o v1 vers' a' c2 b' v2 _ _ f3 _ tr2 (Some l1) HT P2 HU2 W) as (f4 & -> & F4).
  { now apply bound_adv. } { fold U2. unfold lenN in *. lia. }
  rewrite PC2. cbn [bind merged]. fold U2. fold U2 in F4. apply within_adv with (n := lenN (enc U2)) in W; [|reflexivity]. rewrite adv_adv in *.
  rewrite <- (app_nil_r (encs k3)) in W.
  destruct (parse_quiet (encs top) o k3 f4 _ _ _ tr2 (Some (fold_left (fun l a => ilst_insert a l) l2 l1)) W HK3 Q3 NN3) as (tr3 & f5 & -> & F5).
  { unfold lenN in *. lia. }
  apply within_adv with (n := lenN (encs k3)) in W; [|reflexivity]. rewrite (parse_end _ _ _ _ _ _ _ W) by (unfold lenN in *; lia).
  cbn [bind]. rewrite fold_with by exact AO2. eauto.
Qed.
Print Assumptions C152_merged.

Definition two_udta_ex (l1 l2 : list atom) : list box :=
  [ftyp_ex; node ($"moov") [leaf ($"mvhd") [9]; udta_of [] [0; 0; 0; 0] [hdlr_ex] (flat_map item_box l1) [] []; udta_of [] [0; 0; 0; 0] [hdlr_ex] (flat_map item_box l2) [] []]; mdat_ex].
Example C152_ex : mp4_read (encs (two_udta_ex [nam ($"a"); mkAtom (Fourcc (0xA9 :: $"alb")) [AUtf8 ($"x")]] [mkAtom (Fourcc (0xA9 :: $"ART")) [AUtf8 ($"y")]; nam ($"b")])) (mkMo Strict true true true true)
  = Ok ($"M4A ", [], Some [mkAtom (Fourcc (0xA9 :: $"nam")) [AUtf8 ($"a"); AUtf8 ($"b")]; mkAtom (Fourcc (0xA9 :: $"alb")) [AUtf8 ($"x")]; mkAtom (Fourcc (0xA9 :: $"ART")) [AUtf8 ($"y")]]).
Proof. vm_compute. reflexivity. Qed.
