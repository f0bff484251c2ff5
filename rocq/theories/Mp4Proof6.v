From Verif Require Import Base BaseLemmas Str StrLemmas TextModel TextSpec TextProof Mode PictureModel FileModel Mp4Model Mp4WriteModel Mp4Spec Mp4Proof Mp4Proof3 Mp4Proof4 Mp4Proof5.

Lemma item_ok_hd : forall b, item_ok b -> hd_ok b.
Proof.
  intros [s id c|] H; [|contradiction]. destruct H as (-> & L & I & D). unfold hd_ok; cbn [box_name enc]. rewrite lenN_hd by apply I.
  split; [exact I|]. split; [exact D|]. split; [exact L|]. split; [lia|]. now exists c.
Qed.
(** ** [meta] *)
Lemma meta_is_full_ok : forall data r vers kids rest, sees data r (vers ++ encs kids ++ rest) -> Forall hd_ok kids -> meta_start vers kids ->
  avail 8 r -> 8 <= lenN (vers ++ encs kids) ->
  (forall b, r_bound r = Some b -> b_rem b < 2 ^ 32) ->
  exists full r', meta_is_full data r = Ok (full, r') /\ r' = adv (lenN vers) r /\ (full = true -> lenN vers = 4) /\ (full = false -> vers = []).
Proof.
  intros data r vers kids rest HS HK HF HA HL HB. destruct kids as [|x l]; [contradiction|]. cbn [meta_start] in HF.
  inversion HK as [|? ? HX _]; subst. destruct HX as (I & _ & L1 & L2 & c & E).
  unfold meta_is_full.
  assert (SK : forall n k, k <= n -> avail n r -> seek_cur (- Z.of_N k) (adv n r) = Ok (adv (n - k) r)).
  { intros n k H A. unfold seek_cur. cbn [adv r_pos r_bound]. destruct (Z.ltb_spec (Z.of_N (r_pos r + n) + - Z.of_N k) 0); [lia|]. f_equal.
    unfold adv. f_equal; [lia|]. destruct r as [p [b|]]; cbn in *; auto. f_equal. specialize (HB b eq_refl).
    destruct (Z.ltb_spec (- Z.of_N k) 0).
    - f_equal. rewrite Z.opp_involutive, N2Z.id. unfold U64_MAX. change (2 ^ 32) with 4294967296 in HB. rewrite N.min_l; lia.
    - assert (k = 0) by lia. subst k. f_equal. cbn. lia. }
  destruct HF as [(-> & HN)|[HV HN]].
  - cbn [app lenN] in *. rewrite encs_cons, E, <- !app_assoc in HS.
    assert (A4 : avail 4 r) by (apply (avail_le 8); auto; lia).
    assert (B4 : lenN (enc x) < 256 ^ 4) by (change (256 ^ 4) with (2 ^ 32); lia).
    rewrite (rd_be_app _ _ _ _ _ 4 HS eq_refl B4 A4). cbn [bind].
    assert (S1 : sees data (adv 4 r) (box_name x ++ c ++ encs l ++ rest)) by (eapply sees_adv; [exact HS|apply be4_len]).
    rewrite (rd_exact_app _ _ _ _ 4 S1 (proj1 I)) by (apply avail_adv; exact HA). cbn [bind]. rewrite adv_adv.
    assert (X : existsb (list_eqb (box_name x)) [$"hdlr"; $"ilst"; $"mhdr"; $"ctry"; $"lang"] = true).
    { apply existsb_exists. exists (box_name x). split; [exact HN|apply list_eqb_refl]. }
    rewrite X. change (-8)%Z with (- Z.of_N 8)%Z. rewrite (SK (4 + 4) 8) by (auto; lia). cbn [bind].
    exists false. eexists. split; [reflexivity|]. split; [reflexivity|]. split; [discriminate|auto].
  - rewrite encs_cons, E, <- !app_assoc in HS.
    assert (A4 : avail 4 r) by (apply (avail_le 8); auto; lia).
    unfold rd_be. rewrite (rd_exact_app _ _ _ _ 4 HS HV A4). cbn [bind].
    assert (S1 : sees data (adv 4 r) (be_enc 4 (lenN (enc x)) ++ box_name x ++ c ++ encs l ++ rest)) by (eapply sees_adv; [exact HS|exact HV]).
    rewrite (rd_exact_app _ _ _ _ 4 S1 (be4_len _)) by (apply avail_adv; exact HA). cbn [bind]. rewrite adv_adv.
    assert (X : existsb (list_eqb (be_enc 4 (lenN (enc x)))) [$"hdlr"; $"ilst"; $"mhdr"; $"ctry"; $"lang"] = false).
    { destruct (existsb _ _) eqn:Q; auto. apply existsb_exists in Q. destruct Q as (y & Y1 & Y2). apply list_eqb_eq in Y2. subst y. contradiction. }
    rewrite X. change (-4)%Z with (- Z.of_N 4)%Z. rewrite (SK (4 + 4) 4) by (auto; lia). cbn [bind].
    exists true. eexists. split; [reflexivity|]. rewrite HV. split; [reflexivity|]. split; [auto|discriminate].
Qed.
Lemma boxes_len : forall ks, Forall hd_ok ks -> 8 * lenN ks <= lenN (encs ks).
Proof. induction 1; [vm_compute; congruence|]. rewrite encs_cons, lenN_app, lenN_cons. destruct H as (_ & _ & _ & L & _). lia. Qed.
Lemma sees_len : forall data r l, sees data r l -> lenN l <= lenN data.
Proof. intros data r l H. unfold sees in H. rewrite <- H, lenN_dropN. lia. Qed.
Lemma fuel_ok : forall data r ks rest, sees data r (encs ks ++ rest) -> Forall hd_ok ks -> (length ks < S (length data))%nat.
Proof. intros. apply sees_len in H. rewrite lenN_app in H. apply boxes_len in H0. unfold lenN in *. lia. Qed.
Lemma atom_tree_ok : forall data m vers want a b c r rest, sees data r (encs (a ++ b :: c) ++ rest) -> Forall hd_ok (a ++ b :: c) ->
  unbounded r -> lenN vers <= 4 -> Forall (fun x => 8 < lenN (enc x) + lenN vers) (a ++ b :: c) -> box_name b = want -> none_named want c ->
  atom_tree data (lenN (vers ++ encs (a ++ b :: c))) want m r = Ok (lenN a, infos (r_pos r) (a ++ b :: c)).
Proof.
  intros. unfold atom_tree. rewrite (tree_loop_ok data m want (lenN vers) (a ++ b :: c)) with (rest := rest); auto; [|rewrite lenN_app; lia|lia|eapply fuel_ok; eauto].
  cbn [bind app]. rewrite found_one by auto. change (lenN (@nil atom_info)) with 0. do 2 f_equal. lia.
Qed.
(** The atom that is replaced: the last [ilst], or the first atom if there is none *)
Definition chosen (a : list box) (old : box) (c : list box) : Prop :=
  (box_name old = $"ilst" /\ none_named ($"ilst") c) \/ (a = [] /\ box_name old <> $"ilst" /\ none_named ($"ilst") c).
Lemma atom_tree_first : forall data m vers want l r rest, sees data r (encs l ++ rest) -> Forall hd_ok l ->
  unbounded r -> lenN vers <= 4 -> Forall (fun x => 8 < lenN (enc x) + lenN vers) l -> none_named want l ->
  atom_tree data (lenN (vers ++ encs l)) want m r = Ok (0, infos (r_pos r) l).
Proof.
  intros. unfold atom_tree. rewrite (tree_loop_ok data m want (lenN vers) l) with (rest := rest); auto; [|rewrite lenN_app; lia|lia|eapply fuel_ok; eauto].
  cbn [bind app]. rewrite found_none by auto. reflexivity.
Qed.
Lemma atom_tree_chosen : forall data m vers a b c r rest, sees data r (encs (a ++ b :: c) ++ rest) -> Forall hd_ok (a ++ b :: c) ->
  unbounded r -> lenN vers <= 4 -> Forall (fun x => 8 < lenN (enc x) + lenN vers) (a ++ b :: c) -> chosen a b c ->
  atom_tree data (lenN (vers ++ encs (a ++ b :: c))) ($"ilst") m r = Ok (lenN a, infos (r_pos r) (a ++ b :: c)).
Proof.
  intros data m vers a b c r rest HS HK HU HV HC [[E N1]|(-> & E & N1)].
  - eapply atom_tree_ok; eauto.
  - eapply (atom_tree_first _ m vers _ ([] ++ b :: c)); eauto. cbn [app]. now constructor.
Qed.
(** ** The free space around the list *)
Lemma free_run_all : forall l pos, all_free l -> free_run (infos pos l) = infos pos l.
Proof. induction l as [|x l IH]; intros pos H; cbn [infos free_run]; auto. inversion H; subst. cbn [a_ident]. rewrite H2, is_fourcc_refl, IH; auto. Qed.
Lemma free_run_app : forall l x, Forall (fun i => is_fourcc ($"free") (a_ident i) = true) l -> free_run (l ++ x) = l ++ free_run x.
Proof. induction 1; cbn [app free_run]; auto. rewrite H. now rewrite IHForall. Qed.
Lemma infos_free : forall l pos, all_free l -> Forall (fun i => is_fourcc ($"free") (a_ident i) = true) (infos pos l).
Proof. induction l as [|x l IH]; intros pos H; cbn [infos]; constructor; inversion H; subst; auto. cbn [a_ident]. rewrite H2. apply is_fourcc_refl. Qed.
Lemma free_run_none : forall l pos, ~ starts_free l -> free_run (infos pos l) = [].
Proof. intros [|x l] pos H; cbn [infos free_run]; auto. cbn [a_ident]. rewrite is_fourcc_neq by exact H. reflexivity. Qed.
Lemma free_after : forall f2 b0 pos, all_free f2 -> ~ starts_free b0 -> free_run (infos pos (f2 ++ b0)) = infos pos f2.
Proof. intros. rewrite infos_app, free_run_app by now apply infos_free. rewrite free_run_none by auto. apply app_nil_r. Qed.
Lemma free_before : forall a0 f1 pos, all_free f1 -> ~ starts_free (rev a0) ->
  free_run (rev (infos pos (a0 ++ f1))) = rev (infos (pos + lenN (encs a0)) f1).
Proof.
  intros. rewrite infos_app, rev_app_distr, free_run_app.
  - assert (E : free_run (rev (infos pos a0)) = []); [|rewrite E; apply app_nil_r].
    destruct a0 as [|y a0 _] using rev_ind; auto. rewrite rev_app_distr in H0. cbn [app rev starts_free] in H0.
    rewrite infos_app, rev_app_distr. cbn [infos rev app free_run a_ident]. rewrite is_fourcc_neq by exact H0. reflexivity.
  - apply Forall_rev. now apply infos_free.
Qed.
Lemma total_infos : forall l pos, total_len (infos pos l) = lenN (encs l).
Proof. unfold total_len. induction l as [|x l IH]; intros; cbn [infos map sumN]; auto. rewrite IH, encs_cons, lenN_app. reflexivity. Qed.
Lemma total_rev : forall l, total_len (rev l) = total_len l.
Proof.
  unfold total_len. intros l. rewrite map_rev. generalize (map a_len l). clear. intros l.
  assert (A : forall a b, sumN (a ++ b) = sumN a + sumN b) by (induction a; intros; cbn [app sumN]; [lia|rewrite IHa; lia]).
  induction l; cbn [rev sumN]; auto. rewrite A, IHl. cbn [sumN]. lia.
Qed.
Lemma start_of : forall f1 (o : box) pos p, p = pos + lenN (encs f1) ->
  match rev (rev (infos pos f1)) with i :: _ => a_start i | [] => p end = pos.
Proof. intros [|x f1] o pos p H; rewrite rev_involutive; cbn [infos]; subst; auto. change (lenN (encs [])) with 0. lia. Qed.
Lemma free_atom_ok : forall n, 8 <= n -> free_atom n = Ok (be_enc 4 n ++ $"free" ++ repeat 1 (N.to_nat (n - 8))).
Proof. intros. unfold free_atom. replace (n <? 8) with false by lia. reflexivity. Qed.
Lemma free_box_ok : forall n, 8 <= n -> free_atom n = Ok (free_box n).
Proof. intros. rewrite free_atom_ok by auto. unfold free_box, sbox. rewrite lenN_repeat. do 3 f_equal. lia. Qed.
Lemma free_box_len : forall n, 8 <= n -> lenN (free_box n) = n.
Proof. intros. unfold free_box. rewrite lenN_sbox, lenN_repeat by reflexivity. lia. Qed.

(** ** Replacing atoms in [meta] *)
Lemma replace_ok : forall top pre S S0 k1 u1 b1 mid b2 u2 k2 post padding new new' d pad U M start k,
  Forall (every (fun b => box_name b <> $"tfhd")) top ->
  Forall sound (k1 ++ u1 ++ u2 ++ k2) -> dry (k1 ++ u1 ++ u2 ++ k2) ->
  M = 8 + lenN (b1 ++ mid ++ b2) -> U = k + M -> start = meta_at pre k1 u1 + 8 + lenN b1 ->
  (match new with [] => Ok (new, (Z.of_N (lenN new) - Z.of_N (lenN mid))%Z, 0)
   | _ => if (Z.of_N (lenN new) - Z.of_N (lenN mid) =? 0)%Z then Ok (new, (Z.of_N (lenN new) - Z.of_N (lenN mid))%Z, 0)
          else pad_atom new (Z.of_N (lenN new) - Z.of_N (lenN mid))%Z padding end) = Ok (new', d, pad) ->
  lenN new' = lenN new + pad -> k + (8 + lenN (b1 ++ new' ++ b2)) < 2 ^ 32 ->
  replace_atoms (cats 0 top) (cat (moov_at pre) (Node S0 ($"moov") (moov_kids k1 U u1 M (b1 ++ mid ++ b2) u2 k2)))
    (mkAi (meta_at pre k1 u1) M false (Fourcc ($"meta"))) (mkAi (udta_at pre k1) U false (Fourcc ($"udta"))) padding
    (lay pre S k1 U u1 M (b1 ++ mid ++ b2) u2 k2 post) start (start + lenN mid) new
  = Ok (lay pre S (shd d start k1) (k + (8 + lenN (b1 ++ new' ++ b2))) (shd d start u1) (8 + lenN (b1 ++ new' ++ b2)) (b1 ++ new' ++ b2)
          (shd d start u2) (shd d start k2) post, k + (8 + lenN (b1 ++ new' ++ b2))).
Proof.
  intros top pre S S0 k1 u1 b1 mid b2 u2 k2 post padding new new' d pad U M start k HT HS HD HM HU HP HN HL HB.
  unfold replace_atoms. cbn [a_len a_start].
  assert (LM : M = 8 + lenN b1 + lenN mid + lenN b2) by (rewrite HM, !lenN_app; lia).
  assert (LN : lenN (b1 ++ new' ++ b2) = lenN b1 + lenN new + pad + lenN b2) by (rewrite !lenN_app, HL; lia).
  unfold msub at 1. replace (start + lenN mid - start) with (lenN mid) by lia.
  replace (M <? lenN mid) with false by lia. cbn [bind].
  replace (Z.of_N (M - lenN mid + lenN new) - Z.of_N M)%Z with (Z.of_N (lenN new) - Z.of_N (lenN mid))%Z by lia.
  rewrite HN. cbn [bind]. replace (M - lenN mid + lenN new + pad) with (8 + lenN (b1 ++ new' ++ b2)) by lia.
  set (M' := 8 + lenN (b1 ++ new' ++ b2)) in *.
  assert (HW : (if M' =? M then Ok (lay pre S k1 U u1 M (b1 ++ mid ++ b2) u2 k2 post, U) else
     let? k := msub U M in
     let? v := write_size (meta_at pre k1 u1) M' (lay pre S k1 U u1 M (b1 ++ mid ++ b2) u2 k2 post) in
     let? v := write_size (udta_at pre k1) (k + M') v in Ok (v, k + M')) =
     Ok (lay pre S k1 (k + M') u1 M' (b1 ++ mid ++ b2) u2 k2 post, k + M')).
  { destruct (N.eqb_spec M' M) as [E|E]; [rewrite E, <- HU; reflexivity|].
    unfold msub. rewrite HU. replace (k + M <? M) with false by lia. cbn [bind]. replace (k + M - M) with k by lia.
    rewrite write_meta_size by lia. cbn [bind]. rewrite write_udta_size by lia. reflexivity. }
  rewrite HW. cbn [bind].
  assert (HO : (if (d =? 0)%Z then Ok (lay pre S k1 (k + M') u1 M' (b1 ++ mid ++ b2) u2 k2 post) else
      update_offsets (cats 0 top) (cat (moov_at pre) (Node S0 ($"moov") (moov_kids k1 U u1 M (b1 ++ mid ++ b2) u2 k2))) d start
        (lay pre S k1 (k + M') u1 M' (b1 ++ mid ++ b2) u2 k2 post)) =
      Ok (lay pre S (shd d start k1) (k + M') (shd d start u1) M' (b1 ++ mid ++ b2) (shd d start u2) (shd d start k2) post)).
  { unfold shd. destruct (d =? 0)%Z; [reflexivity|]. now apply update_offsets_ok. }
  rewrite HO. cbn [bind].
  assert (LS : forall l, Forall sound l -> lenN (encs (shd d start l)) = lenN (encs l)).
  { intros l H. unfold shd. destruct (d =? 0)%Z; auto using sh_len. }
  apply Forall_app in HS. destruct HS as [S1 HS]. apply Forall_app in HS. destruct HS as [S2 _].
  rewrite splice_body; [reflexivity|]. unfold meta_at, udta_at in *. rewrite !LS by auto. exact HP.
Qed.
Lemma replace_plan : forall a0 f1 old f2 b0 I padding kids d upto,
  new_kids a0 f1 old f2 b0 I padding kids d upto -> 8 <= lenN (enc old) ->
  (exists n, kids = encs a0 ++ I ++ free_box n ++ encs b0 /\ d = 0%Z /\ upto = a0 /\ I <> [] /\ lenN I + n = lenN (encs f1) + lenN (enc old) + lenN (encs f2) /\ 8 < n) \/
  (lenN (encs f1) + lenN (enc old) + lenN (encs f2) <= lenN I + 8 \/ I = []) /\
  exists new' mid pad, kids = encs upto ++ new' ++ encs f2 ++ encs b0 /\ lenN new' = lenN I + pad /\
    encs upto ++ mid = encs a0 ++ encs f1 ++ enc old /\ (I = [] -> upto = a0 ++ f1 /\ mid = enc old) /\ (I <> [] -> upto = a0 /\ mid = encs f1 ++ enc old) /\
    (match I with [] => Ok (I, (Z.of_N (lenN I) - Z.of_N (lenN mid))%Z, 0)
     | _ => if (Z.of_N (lenN I) - Z.of_N (lenN mid) =? 0)%Z then Ok (I, (Z.of_N (lenN I) - Z.of_N (lenN mid))%Z, 0)
            else pad_atom I (Z.of_N (lenN I) - Z.of_N (lenN mid))%Z padding end) = Ok (new', d, pad).
Proof.
  intros a0 f1 old f2 b0 I padding kids d upto H HO. destruct H as [H|n H H1 H2|n H H1 H2|H H1 H2|n H H1 H2 H3 H4|n p H H1 H2 H3 H4 H5].
  - right. split; auto. exists [], (enc old), 0. subst I. rewrite encs_app, <- !app_assoc. cbn [app]. change (lenN (@nil N)) with 0.
    split; [reflexivity|]. split; [reflexivity|]. split; [reflexivity|]. split; [auto|]. split; [congruence|]. do 3 f_equal; lia.
  - left. exists n. auto 10.
  - right. split; [left; lia|]. exists I, (encs f1 ++ enc old), 0. split; [reflexivity|]. split; [lia|]. split; [reflexivity|].
    split; [congruence|]. split; [auto|]. rewrite lenN_app. replace (Z.of_N (lenN I) - Z.of_N (lenN (encs f1) + lenN (enc old)))%Z with (Z.of_N n) by lia.
    destruct I; [congruence|]. destruct (Z.eqb_spec (Z.of_N n) 0); auto. unfold pad_atom. replace (0 <? Z.of_N n)%Z with true by lia. reflexivity.
  - right. split; [left; subst f2; change (lenN (encs [])) with 0; lia|]. exists (I ++ free_box 8), (encs f1 ++ enc old), 8. split; [now rewrite <- !app_assoc|].
    split; [rewrite lenN_app, free_box_len by lia; reflexivity|]. split; [reflexivity|]. split; [congruence|]. split; [auto|].
    rewrite lenN_app. replace (Z.of_N (lenN I) - Z.of_N (lenN (encs f1) + lenN (enc old)))%Z with (-8)%Z by lia.
    destruct I; [congruence|]. reflexivity.
  - right. split; [left; lia|]. exists I, (encs f1 ++ enc old), 0. split; [reflexivity|]. split; [lia|]. split; [reflexivity|].
    split; [congruence|]. split; [auto|]. rewrite lenN_app. replace (Z.of_N (lenN I) - Z.of_N (lenN (encs f1) + lenN (enc old)))%Z with (- Z.of_N n)%Z by lia.
    destruct I; [congruence|]. replace (- Z.of_N n =? 0)%Z with false by lia. unfold pad_atom. replace (0 <? - Z.of_N n)%Z with false by lia.
    rewrite Z.opp_involutive, N2Z.id. replace (8 <=? n) with false by lia. rewrite H4. reflexivity.
  - right. split; [left; lia|]. exists (I ++ free_box p), (encs f1 ++ enc old), p. split; [now rewrite <- !app_assoc|].
    split; [rewrite lenN_app, free_box_len by lia; reflexivity|]. split; [reflexivity|]. split; [congruence|]. split; [auto|].
    rewrite lenN_app. replace (Z.of_N (lenN I) - Z.of_N (lenN (encs f1) + lenN (enc old)))%Z with (- Z.of_N n)%Z by lia.
    destruct I; [congruence|]. replace (- Z.of_N n =? 0)%Z with false by lia. unfold pad_atom. replace (0 <? - Z.of_N n)%Z with false by lia.
    rewrite Z.opp_involutive, N2Z.id. replace (8 <=? n) with false by lia. rewrite H4, free_box_ok by lia. cbn [bind]. do 3 f_equal. lia.
Qed.
Lemma write_body : forall pre S k1 U u1 M b1 mid b2 u2 k2 post new start,
  start = meta_at pre k1 u1 + 8 + lenN b1 -> lenN mid = lenN new ->
  write_at start new (lay pre S k1 U u1 M (b1 ++ mid ++ b2) u2 k2 post) = lay pre S k1 U u1 M (b1 ++ new ++ b2) u2 k2 post.
Proof.
  intros. unfold lay.
  set (P := encs pre ++ be_enc 4 S ++ $"moov" ++ encs k1 ++ be_enc 4 U ++ $"udta" ++ encs u1 ++ be_enc 4 M ++ $"meta" ++ b1).
  assert (L : lenN P = start) by (subst start; unfold P; lens). rewrite <- L.
  assert (E : forall x, encs pre ++ be_enc 4 S ++ $"moov" ++ encs k1 ++ be_enc 4 U ++ $"udta" ++ encs u1 ++ be_enc 4 M ++ $"meta" ++ (b1 ++ x ++ b2) ++ encs u2 ++ encs k2 ++ encs post = P ++ x ++ b2 ++ encs u2 ++ encs k2 ++ encs post)
    by (intros; unfold P; now rewrite <- !app_assoc).
  rewrite !E. now apply write_inside.
Qed.
Lemma sees_body : forall pre S k1 U u1 M b1 b2 u2 k2 post,
  sees (lay pre S k1 U u1 M (b1 ++ b2) u2 k2 post) (cursor (meta_at pre k1 u1 + 8 + lenN b1)) (b2 ++ encs u2 ++ encs k2 ++ encs post).
Proof.
  intros. unfold sees. cbn [cursor r_pos]. unfold lay.
  set (P := encs pre ++ be_enc 4 S ++ $"moov" ++ encs k1 ++ be_enc 4 U ++ $"udta" ++ encs u1 ++ be_enc 4 M ++ $"meta" ++ b1).
  assert (L : lenN P = meta_at pre k1 u1 + 8 + lenN b1) by (unfold P; lens). rewrite <- L.
  replace (encs pre ++ be_enc 4 S ++ $"moov" ++ encs k1 ++ be_enc 4 U ++ $"udta" ++ encs u1 ++ be_enc 4 M ++ $"meta" ++ (b1 ++ b2) ++ encs u2 ++ encs k2 ++ encs post)
    with (P ++ b2 ++ encs u2 ++ encs k2 ++ encs post) by (unfold P; now rewrite <- !app_assoc).
  now apply dropN_app.
Qed.
Lemma save_ok : forall top pre S S0 k1 u1 vers a0 f1 old f2 b0 u2 k2 post m padding I kids' d upto U M k from,
  Forall (every (fun b => box_name b <> $"tfhd")) top ->
  Forall sound (k1 ++ u1 ++ u2 ++ k2) -> dry (k1 ++ u1 ++ u2 ++ k2) ->
  Forall hd_ok (a0 ++ f1 ++ old :: f2 ++ b0) -> meta_form vers (a0 ++ f1 ++ old :: f2 ++ b0) -> lenN vers <= 4 ->
  chosen (a0 ++ f1) old (f2 ++ b0) -> all_free f1 -> all_free f2 -> ~ starts_free (rev a0) -> ~ starts_free b0 ->
  M = 8 + lenN (vers ++ encs (a0 ++ f1 ++ old :: f2 ++ b0)) -> U = k + M -> M < 2 ^ 32 ->
  new_kids a0 f1 old f2 b0 I padding kids' d upto -> from = meta_at pre k1 u1 + 8 + lenN (vers ++ encs upto) ->
  k + (8 + lenN (vers ++ kids')) < 2 ^ 32 ->
  save_to_existing (cats 0 top) (cat (moov_at pre) (Node S0 ($"moov") (moov_kids k1 U u1 M (vers ++ encs (a0 ++ f1 ++ old :: f2 ++ b0)) u2 k2)))
    (mkAi (meta_at pre k1 u1) M false (Fourcc ($"meta"))) (mkAi (udta_at pre k1) U false (Fourcc ($"udta"))) I m padding
    (lay pre S k1 U u1 M (vers ++ encs (a0 ++ f1 ++ old :: f2 ++ b0)) u2 k2 post) (cursor (meta_at pre k1 u1 + 8 + lenN vers))
  = Ok (lay pre S (shd d from k1) (k + (8 + lenN (vers ++ kids'))) (shd d from u1) (8 + lenN (vers ++ kids')) (vers ++ kids')
          (shd d from u2) (shd d from k2) post, k + (8 + lenN (vers ++ kids'))).
Proof.
  intros top pre S S0 k1 u1 vers a0 f1 old f2 b0 u2 k2 post m padding I kids' d upto U M k from HT HS HD HK HF HV HO HF1 HF2 HA HB HM HU HMB HP HR HL.
  set (kids := a0 ++ f1 ++ old :: f2 ++ b0) in *.
  assert (EK : kids = (a0 ++ f1) ++ old :: (f2 ++ b0)) by (unfold kids; now rewrite <- app_assoc).
  unfold save_to_existing. cbn [a_len a_start]. unfold msub at 1. replace (M <? 8) with false by lia. cbn [bind].
  replace (M - 8) with (lenN (vers ++ encs kids)) by lia.
  assert (HC : Forall (fun x => 8 < lenN (enc x) + lenN vers) kids).
  { destruct HF as [HF HF']. unfold meta_start in HF. fold kids in HF. fold kids in HF'. destruct kids as [|x l]; [constructor|]. destruct HF as [(-> & _)|[HF _]].
    - eapply Forall_impl; [|apply HF'; reflexivity]. cbn. intros. lia.
    - eapply Forall_impl; [|exact HK]. intros y (_ & _ & _ & Y & _). lia. }
  assert (TR : atom_tree (lay pre S k1 U u1 M (vers ++ encs kids) u2 k2 post) (lenN (vers ++ encs kids)) ($"ilst") m (cursor (meta_at pre k1 u1 + 8 + lenN vers))
    = Ok (lenN (a0 ++ f1), infos (meta_at pre k1 u1 + 8 + lenN vers) kids)).
  { rewrite EK. rewrite EK in HK, HC. eapply (atom_tree_chosen _ m vers (a0 ++ f1) old (f2 ++ b0) (cursor _)); eauto; try reflexivity. apply sees_body. }
  rewrite TR. cbn [bind]. set (P := meta_at pre k1 u1 + 8 + lenN vers) in *.
  assert (LO : 8 <= lenN (enc old)). { rewrite EK in HK. apply Forall_app in HK. destruct HK as [_ HK]. inversion HK; subst. destruct H1 as (_ & _ & _ & L & _). exact L. }
  assert (EI : infos P kids = infos P (a0 ++ f1) ++ mkAi (P + lenN (encs (a0 ++ f1))) (lenN (enc old)) false (Fourcc (box_name old)) :: infos (P + lenN (encs (a0 ++ f1)) + lenN (enc old)) (f2 ++ b0)).
  { rewrite EK, infos_app. reflexivity. }
  assert (EM : forall A (x : A) y, match infos P kids with [] => x | _ :: _ => y end = y).
  { intros. rewrite EI. destruct (infos P (a0 ++ f1)); reflexivity. }
  rewrite EM.
  assert (LI : length (infos P (a0 ++ f1)) = N.to_nat (lenN (a0 ++ f1))) by (rewrite <- (infos_length _ P); unfold lenN; lia).
  assert (EN : nth_error (infos P kids) (N.to_nat (lenN (a0 ++ f1))) = Some (mkAi (P + lenN (encs (a0 ++ f1))) (lenN (enc old)) false (Fourcc (box_name old)))).
  { rewrite EI, <- LI, nth_error_app2, Nat.sub_diag by lia. reflexivity. }
  rewrite EN. cbn [a_start a_len].
  assert (EB : forall w x y z, vers ++ encs a0 ++ encs f1 ++ enc old ++ encs f2 ++ encs b0 = w ++ x ++ y ++ z ->
     vers ++ encs kids = w ++ x ++ y ++ z).
  { intros. rewrite <- H. unfold kids. rewrite !encs_app, encs_cons, encs_app. reflexivity. }
  assert (TB : takeN (lenN (a0 ++ f1)) (infos P kids) = infos P (a0 ++ f1)) by (rewrite EI; apply takeN_app, infos_length).
  assert (DB : dropN (lenN (a0 ++ f1) + 1) (infos P kids) = infos (P + lenN (encs (a0 ++ f1)) + lenN (enc old)) (f2 ++ b0)).
  { rewrite EI.
    replace (infos P (a0 ++ f1) ++ mkAi (P + lenN (encs (a0 ++ f1))) (lenN (enc old)) false (Fourcc (box_name old)) :: infos (P + lenN (encs (a0 ++ f1)) + lenN (enc old)) (f2 ++ b0))
      with ((infos P (a0 ++ f1) ++ [mkAi (P + lenN (encs (a0 ++ f1))) (lenN (enc old)) false (Fourcc (box_name old))]) ++ infos (P + lenN (encs (a0 ++ f1)) + lenN (enc old)) (f2 ++ b0))
      by (now rewrite <- app_assoc).
    apply dropN_app. rewrite lenN_app, infos_length. reflexivity. }
  rewrite TB, DB, free_before, free_after, total_rev, !total_infos by auto.
  rewrite (start_of f1 old) by (rewrite encs_app, lenN_app; lia).
  destruct (replace_plan _ _ _ _ _ _ _ _ _ _ HP LO) as [(n & E1 & E2 & E3 & E4 & E5 & E6)|[HA' (new' & mid & pad & E1 & E2 & E3 & E4 & E5 & E6)]].
  - (* fits *)
    assert (RM : match I with [] => true | _ :: _ => false end = false) by (destruct I; [congruence|reflexivity]). rewrite RM.
    replace (lenN I + 8 <? _) with true by lia.
    replace (lenN (enc old) + lenN (encs f1) + lenN (encs f2) - lenN I) with n by lia.
    assert (NB : n < 2 ^ 32). { unfold kids in HM. rewrite !lenN_app, !encs_app, encs_cons, encs_app, !lenN_app in HM. lia. }
    replace (U32_MAX <? n) with false by (unfold U32_MAX; lia). rewrite free_box_ok by lia. cbn [bind]. subst d. unfold shd. cbn [Z.eqb].
    rewrite (EB (vers ++ encs a0) (encs f1 ++ enc old ++ encs f2) (encs b0) []) by (rewrite app_nil_r, <- !app_assoc; reflexivity).
    rewrite app_nil_r, write_body; [|unfold P; rewrite !lenN_app; lia|rewrite !lenN_app, free_box_len by lia; lia].
    assert (X : (vers ++ encs a0) ++ (I ++ free_box n) ++ encs b0 = vers ++ kids') by (rewrite E1, <- !app_assoc; reflexivity).
    rewrite X. assert (LK : lenN (vers ++ kids') = lenN (vers ++ encs kids)).
    { rewrite <- X. unfold kids. rewrite !lenN_app, !encs_app, encs_cons, encs_app, !lenN_app, free_box_len by lia. lia. }
    rewrite LK, <- HM, <- HU. reflexivity.
  - assert (BE : vers ++ encs kids = (vers ++ encs upto) ++ mid ++ encs f2 ++ encs b0).
    { unfold kids. rewrite !encs_app, encs_cons, encs_app, <- !app_assoc. f_equal.
      transitivity ((encs a0 ++ encs f1 ++ enc old) ++ encs f2 ++ encs b0); [now rewrite <- !app_assoc|]. rewrite <- E3. now rewrite <- !app_assoc. }
    assert (KE : vers ++ kids' = (vers ++ encs upto) ++ new' ++ encs f2 ++ encs b0) by (rewrite E1, <- !app_assoc; reflexivity).
    assert (RP : replace_atoms (cats 0 top) (cat (moov_at pre) (Node S0 ($"moov") (moov_kids k1 U u1 M (vers ++ encs kids) u2 k2)))
      (mkAi (meta_at pre k1 u1) M false (Fourcc ($"meta"))) (mkAi (udta_at pre k1) U false (Fourcc ($"udta"))) padding
      (lay pre S k1 U u1 M (vers ++ encs kids) u2 k2 post) from (from + lenN mid) I
      = Ok (lay pre S (shd d from k1) (k + (8 + lenN (vers ++ kids'))) (shd d from u1) (8 + lenN (vers ++ kids')) (vers ++ kids')
          (shd d from u2) (shd d from k2) post, k + (8 + lenN (vers ++ kids')))).
    { rewrite BE, KE. eapply replace_ok; eauto; [now rewrite <- BE|now rewrite <- KE]. }
    destruct I as [|i0 I0] eqn:EqI.
    + destruct (E4 eq_refl) as [-> ->].
      replace (P + lenN (encs (a0 ++ f1))) with from by (unfold P; rewrite HR, lenN_app; lia). exact RP.
    + rewrite <- EqI in *. assert (NE : I <> []) by (rewrite EqI; discriminate). clear EqI i0 I0.
      destruct (E5 NE) as [-> ->]. replace (_ <? _) with false by (destruct HA' as [HA'|HA']; [lia|congruence]).
      replace (P + lenN (encs (a0 ++ f1)) + lenN (enc old)) with (from + lenN (encs f1 ++ enc old)) by (unfold P; rewrite HR, encs_app, !lenN_app; lia).
      replace (P + lenN (encs a0)) with from by (unfold P; rewrite HR, lenN_app; lia). exact RP.
Qed.
