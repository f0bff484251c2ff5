From Verif Require Import Base BaseLemmas Str StrLemmas TextModel TextSpec TextProof Mode PictureModel FileModel Mp4Model Mp4WriteModel Mp4Spec Mp4Proof.

(** ** Trees *)
Section BoxInd.
  Context (P : box -> Prop) (HL : forall s id c, P (Leaf s id c)) (HN : forall s id ks, Forall P ks -> P (Node s id ks)).
  Fixpoint box_ind' (b : box) : P b :=
    match b with
    | Leaf s id c => HL s id c
    | Node s id ks => HN s id ks ((fix go (l : list box) : Forall P l :=
        match l with [] => Forall_nil P | k :: l => Forall_cons k (box_ind' k) (go l) end) ks)
    end.
End BoxInd.
Lemma box_ok_node : forall s id ks, box_ok (Node s id ks) <-> s = 8 + lenN (encs ks) /\ s < 2 ^ 32 /\ In id CONTAINERS /\ boxes_ok ks.
Proof.
  intros. cbn [box_ok]. fold (encs ks). split; intros (H1 & H2 & H3 & H4); split; auto; split; auto; split; auto; clear - H4.
  - induction ks; constructor; [apply H4|apply IHks, H4].
  - induction H4; auto.
Qed.
Lemma container_id : forall id, In id CONTAINERS -> box_id id /\ id <> $"----".
Proof.
  unfold CONTAINERS. cbn [In]. intros id H. repeat (destruct H as [<-|H]; [split; [idok|idne]|]). contradiction.
Qed.
(** What the header of a box says *)
Definition hd_ok (b : box) : Prop :=
  box_id (box_name b) /\ box_name b <> $"----" /\ lenN (enc b) < 2 ^ 32 /\ 8 <= lenN (enc b) /\
  exists c, enc b = be_enc 4 (lenN (enc b)) ++ box_name b ++ c.
Lemma lenN_hd : forall s (id c : bytes), lenN id = 4 -> lenN (be_enc 4 s ++ id ++ c) = 8 + lenN c.
Proof. intros. rewrite !lenN_app, be_enc_len, H. lia. Qed.
Lemma box_ok_hd : forall b, box_ok b -> hd_ok b.
Proof.
  intros [s id c|s id ks] H.
  - cbn [box_ok] in H. destruct H as (-> & L & I & D & _). unfold hd_ok; cbn [box_name enc]. rewrite lenN_hd by apply I.
    split; [exact I|]. split; [exact D|]. split; [exact L|]. split; [lia|]. now exists c.
  - apply box_ok_node in H. destruct H as (-> & L & I & _). destruct (container_id _ I) as [J D].
    unfold hd_ok; cbn [box_name enc]. fold (encs ks). rewrite lenN_hd by apply J.
    split; [exact J|]. split; [exact D|]. split; [exact L|]. split; [lia|]. now exists (encs ks).
Qed.
Lemma read_info_hd : forall data r b rest size m, sees data r (enc b ++ rest) -> hd_ok b -> lenN (enc b) <= size + 8 -> avail 8 r ->
  read_info data size m r = Ok (Some (mkAi (r_pos r) (lenN (enc b)) false (Fourcc (box_name b))), adv 8 r).
Proof.
  intros data r b rest size m S (I & D & L & M & c & E) H A. rewrite E, <- !app_assoc in S. eapply read_info_box; eauto.
Qed.
Lemma encs_cons : forall b l, encs (b :: l) = enc b ++ encs l.
Proof. reflexivity. Qed.
Lemma encs_app : forall a b, encs (a ++ b) = encs a ++ encs b.
Proof. intros. unfold encs. now rewrite flat_map_app. Qed.

(** The atoms found in a tree that starts at [pos] *)
Fixpoint cat (pos : N) (b : box) : catom :=
  match b with
  | Leaf _ id c => CAtom (mkAi pos (lenN (enc b)) false (Fourcc id)) []
  | Node _ id ks => CAtom (mkAi pos (lenN (enc b)) false (Fourcc id))
      ((fix go (pos : N) (l : list box) : list catom := match l with [] => [] | k :: l => cat pos k :: go (pos + lenN (enc k)) l end) (pos + 8) ks)
  end.
Fixpoint cats (pos : N) (l : list box) : list catom :=
  match l with [] => [] | k :: l => cat pos k :: cats (pos + lenN (enc k)) l end.
Lemma cat_node : forall pos s id ks, cat pos (Node s id ks) = CAtom (mkAi pos (lenN (enc (Node s id ks))) false (Fourcc id)) (cats (pos + 8) ks).
Proof. reflexivity. Qed.
Lemma cat_info : forall pos b, c_info (cat pos b) = mkAi pos (lenN (enc b)) false (Fourcc (box_name b)).
Proof. intros pos [|]; reflexivity. Qed.
Fixpoint cnt (b : box) : nat := match b with Leaf _ _ _ => 1%nat | Node _ _ ks => S (list_sum (map cnt ks)) end.
Definition cnts (l : list box) : nat := list_sum (map cnt l).
Lemma cnt_pos : forall b, (1 <= cnt b)%nat.
Proof. intros [|]; cbn; lia. Qed.
Lemma important_in : forall id, In id CONTAINERS -> important (Fourcc id) = true.
Proof. intros. unfold important. apply existsb_exists. exists id. split; [exact H|]. cbn. apply list_eqb_refl. Qed.
Lemma important_not : forall id, ~ In id CONTAINERS -> important (Fourcc id) = false.
Proof.
  intros id H. unfold important. destruct (existsb _ _) eqn:E; auto. apply existsb_exists in E. destruct E as (f & F & G).
  cbn in G. apply list_eqb_eq in G. subst. contradiction.
Qed.
Definition unbounded (r : reader) : Prop := r_bound r = None.
Lemma unbounded_avail : forall n r, unbounded r -> avail n r.
Proof. intros n r H. unfold avail. rewrite H. auto. Qed.
Lemma unbounded_adv : forall n r, unbounded r -> unbounded (adv n r).
Proof. intros n r H. unfold unbounded, adv in *. cbn. rewrite H. reflexivity. Qed.
Definition ctx_reads (b : box) : Prop := forall data m len r rest fuel, box_ok b -> sees data r (enc b ++ rest) -> unbounded r ->
  lenN (enc b) <= len -> (2 * cnt b + 1 <= fuel)%nat ->
  ctx_read fuel data m len r = Ok (Some (cat (r_pos r) b), len - lenN (enc b), adv (lenN (enc b)) r).
Lemma ctx_kids_ok : forall ks, Forall ctx_reads ks -> forall data m len r rest fuel, boxes_ok ks -> sees data r (encs ks ++ rest) -> unbounded r ->
  len = lenN (encs ks) -> (2 * cnts ks + 2 <= fuel)%nat ->
  ctx_kids fuel data m len r = Ok (cats (r_pos r) ks, 0, adv (lenN (encs ks)) r).
Proof.
  induction 1 as [|k ks HK HKS IH]; intros data m len r rest fuel HO HS HU HL HF.
  - destruct fuel as [|[|fuel]]; [cbn in HF; lia|cbn in HF; lia|]. subst len. cbn. rewrite adv_0. reflexivity.
  - inversion HO; subst. destruct fuel as [|fuel]; [cbn in HF; lia|]. cbn [ctx_kids]. rewrite encs_cons, <- app_assoc in HS.
    assert (F : (2 * cnt k + 2 * cnts ks + 2 <= S fuel)%nat) by (unfold cnts, list_sum in *; cbn [map fold_right] in HF; lia).
    pose proof (cnt_pos k).
    assert (Q1 : lenN (enc k) <= lenN (encs (k :: ks))) by (rewrite encs_cons, lenN_app; lia).
    assert (Q2 : (2 * cnt k + 1 <= fuel)%nat) by lia.
    rewrite (HK data m _ r _ fuel H1 HS HU Q1 Q2). cbn [bind].
    rewrite (IH data m _ (adv (lenN (enc k)) r) rest fuel H2); [|eapply sees_adv; eauto|now apply unbounded_adv|rewrite encs_cons, lenN_app; lia|lia].
    cbn [bind cats]. rewrite adv_pos, adv_adv, encs_cons, lenN_app. reflexivity.
Qed.
Lemma ctx_read_ok : forall b, ctx_reads b.
Proof.
  induction b as [s id c|s id ks IH] using box_ind'; intros data m len r rest fuel HO HS HU HL HF;
    (destruct fuel as [|fuel]; [cbn in HF; lia|]); pose proof (box_ok_hd _ HO) as HD; pose proof HD as (_ & _ & L1 & L2 & _);
    cbn [ctx_read]; (replace (len =? 0) with false by lia);
    rewrite (read_info_hd _ _ _ _ len m HS HD) by (try lia; now apply unbounded_avail); cbn [bind a_ident a_len a_ext box_name].
  - cbn [box_ok] in HO. destruct HO as (_ & _ & _ & _ & HI). rewrite important_not by auto. cbn [negb].
    rewrite skip_box by lia. cbn [bind]. rewrite adv_adv. replace (8 + (lenN (enc (Leaf s id c)) - 8)) with (lenN (enc (Leaf s id c))) by lia. reflexivity.
  - apply box_ok_node in HO. destruct HO as (Hs & _ & HI & HK). rewrite important_in by auto. cbn [negb].
    destruct (container_id _ HI) as [J _].
    assert (LE : lenN (enc (Node s id ks)) = 8 + lenN (encs ks)) by (cbn [enc]; rewrite lenN_hd by apply J; reflexivity).
    unfold msub, header_size. cbn [a_ext]. rewrite LE. replace (8 + lenN (encs ks) <? 8) with false by lia. cbn [bind].
    cbn [enc] in HS. fold (encs ks) in HS. rewrite app_assoc, <- app_assoc in HS.
    rewrite (ctx_kids_ok ks IH data m _ (adv 8 r) rest fuel HK); [|eapply sees_adv; [exact HS|rewrite lenN_app, be_enc_len, (proj1 J); reflexivity]|now apply unbounded_adv|lia|cbn [cnt] in HF; unfold cnts; lia].
    cbn [bind negb]. rewrite cat_node, adv_adv, adv_pos, LE. reflexivity.
Qed.
Lemma cnt_len : forall b, box_ok b -> N.of_nat (cnt b) <= lenN (enc b).
Proof.
  induction b as [s id c|s id ks IH] using box_ind'; intros HO.
  - pose proof (box_ok_hd _ HO) as (_ & _ & _ & L & _). cbn [cnt]. lia.
  - apply box_ok_node in HO. destruct HO as (_ & _ & HI & HK). destruct (container_id _ HI) as [J _].
    cbn [enc cnt]. fold (encs ks). rewrite lenN_hd by apply J.
    assert (N.of_nat (list_sum (map cnt ks)) <= lenN (encs ks)); [|lia].
    clear - IH HK. induction IH; [cbn; lia|]. inversion HK; subst. rewrite encs_cons, lenN_app. cbn [map list_sum fold_right].
    apply H in H2. apply IHIH in H3. unfold list_sum in *. lia.
Qed.
Lemma cnts_len : forall ks, boxes_ok ks -> N.of_nat (cnts ks) <= lenN (encs ks).
Proof.
  induction 1; [cbn; lia|]. unfold cnts in *. rewrite encs_cons, lenN_app. cbn [map list_sum fold_right].
  apply cnt_len in H. unfold list_sum in *. lia.
Qed.
Lemma read_atoms_ok : forall top m, boxes_ok top -> read_atoms (encs top) m = Ok (cats 0 top).
Proof.
  intros top m HO. unfold read_atoms.
  assert (HS : sees (encs top) (cursor 0) (encs top ++ [])) by (unfold sees; cbn [cursor r_pos]; now rewrite dropN_0, app_nil_r).
  rewrite (ctx_kids_ok top) with (rest := []); auto; try reflexivity.
  - apply Forall_forall. intros; apply ctx_read_ok.
  - pose proof (cnts_len _ HO). unfold lenN in *. lia.
Qed.

(** ** Searching *)
Definition named (b : box) : bytes := box_name b.
Lemma is_fourcc_refl : forall f, is_fourcc f (Fourcc f) = true.
Proof. intros. apply list_eqb_refl. Qed.
Lemma is_fourcc_neq : forall f g, g <> f -> is_fourcc f (Fourcc g) = false.
Proof. intros. now apply list_eqb_neq. Qed.
Lemma avail_app : forall (data : bytes) n k r, avail (n + k) r -> avail n r.
Proof. intros. eapply avail_le; [|eauto]. lia. Qed.
Lemma find_child_found : forall data m want a b c fuel len r rest,
  sees data r (encs a ++ enc b ++ rest) -> Forall hd_ok a -> hd_ok b -> none_named want a -> box_name b = want ->
  len = lenN (encs a) + lenN (enc b) + c -> 8 < lenN (enc b) + c -> Forall (fun x => 8 < lenN (enc x) + c) a ->
  avail (lenN (encs a) + 8) r -> (length a < fuel)%nat ->
  find_child fuel data len want m r =
    Ok (Some (mkAi (r_pos r + lenN (encs a)) (lenN (enc b)) false (Fourcc want)), adv (lenN (encs a) + 8) r).
Proof.
  intros data m want a b c. induction a as [|x a IH]; intros fuel len r rest HS HA HB HN HW HL HC HC' HV HF.
  - destruct fuel; [inversion HF|]. cbn [find_child]. change (lenN (encs [])) with 0 in *. replace (len <=? 8) with false by lia.
    rewrite (read_info_hd _ _ _ _ len m HS HB); [|lia|exact HV]. cbn [bind a_ident]. rewrite HW, is_fourcc_refl, N.add_0_r. reflexivity.
  - destruct fuel; [inversion HF|]. inversion HA; subst. inversion HN; subst. inversion HC'; subst.
    rewrite encs_cons, lenN_app in *. rewrite <- app_assoc in HS.
    cbn [find_child]. replace (_ <=? 8) with false by lia. pose proof H1 as (_ & _ & X1 & X2 & _).
    rewrite (read_info_hd _ _ _ _ _ m HS H1); [|lia|eapply avail_le; [|exact HV]; lia]. cbn [bind a_ident a_len a_ext].
    rewrite is_fourcc_neq by auto. rewrite skip_box by lia. cbn [bind]. rewrite adv_adv.
    replace (8 + (lenN (enc x) - 8)) with (lenN (enc x)) by lia.
    rewrite (IH fuel _ (adv (lenN (enc x)) r) rest); auto.
    + rewrite adv_pos, adv_adv, <- N.add_assoc. replace (lenN (enc x) + (lenN (encs a) + 8)) with (lenN (enc x) + lenN (encs a) + 8) by lia. reflexivity.
    + eapply sees_adv; eauto.
    + lia.
    + apply avail_adv. eapply avail_le; [|exact HV]. lia.
    + cbn in HF. lia.
Qed.
Lemma find_child_none : forall data m want a fuel r rest,
  sees data r (encs a ++ rest) -> Forall hd_ok a -> none_named want a -> avail (lenN (encs a)) r -> (length a < fuel)%nat ->
  find_child fuel data (lenN (encs a) + 8) want m r = Ok (None, adv (lenN (encs a)) r).
Proof.
  intros data m want a. induction a as [|x a IH]; intros fuel r rest HS HA HN HV HF.
  - destruct fuel; [inversion HF|]. cbn. rewrite adv_0. reflexivity.
  - destruct fuel; [inversion HF|]. inversion HA; subst. inversion HN; subst. rewrite encs_cons, lenN_app in *. rewrite <- app_assoc in HS.
    pose proof H1 as (_ & _ & X1 & X2 & _).
    cbn [find_child]. replace (_ <=? 8) with false by lia.
    rewrite (read_info_hd _ _ _ _ _ m HS H1); [|lia|eapply avail_le; [|exact HV]; lia]. cbn [bind a_ident a_len a_ext].
    rewrite is_fourcc_neq by auto. rewrite skip_box by lia. cbn [bind]. rewrite adv_adv.
    replace (8 + (lenN (enc x) - 8)) with (lenN (enc x)) by lia.
    replace (lenN (enc x) + lenN (encs a) + 8 - lenN (enc x)) with (lenN (encs a) + 8) by lia.
    rewrite (IH fuel (adv (lenN (enc x)) r) rest); auto.
    + rewrite adv_adv. reflexivity.
    + eapply sees_adv; eauto.
    + now apply avail_adv.
    + cbn in HF. lia.
Qed.
(** The children of an atom, with positions *)
Fixpoint infos (pos : N) (l : list box) : list atom_info :=
  match l with [] => [] | k :: l => mkAi pos (lenN (enc k)) false (Fourcc (box_name k)) :: infos (pos + lenN (enc k)) l end.
Lemma infos_app : forall a b pos, infos pos (a ++ b) = infos pos a ++ infos (pos + lenN (encs a)) b.
Proof.
  induction a as [|x a]; intros; cbn [app infos]. now rewrite N.add_0_r. rewrite IHa. do 3 f_equal. rewrite encs_cons, lenN_app. lia.
Qed.
Lemma infos_length : forall l pos, lenN (infos pos l) = lenN l.
Proof. induction l; intros; cbn [infos]; auto. rewrite !lenN_cons, IHl. reflexivity. Qed.
Definition found_after (want : bytes) (n : N) (ks : list box) (found : N) : N :=
  fst (fold_left (fun '(f, n) k => (if list_eqb (box_name k) want then n + 1 else f, n + 1)) ks (found, n)).
Lemma tree_loop_ok : forall data m want c ks fuel len r acc found rest,
  sees data r (encs ks ++ rest) -> Forall hd_ok ks -> unbounded r -> len = lenN (encs ks) + c -> c <= 8 ->
  Forall (fun x => 8 < lenN (enc x) + c) ks -> (length ks < fuel)%nat ->
  tree_loop fuel data len want m r acc found = Ok (found_after want (lenN acc) ks found, acc ++ infos (r_pos r) ks).
Proof.
  intros data m want c. induction ks as [|k ks IH]; intros fuel len r acc found rest HS HK HU HL HC HC' HF.
  - destruct fuel; [inversion HF|]. change (lenN (encs [])) with 0 in HL. cbn [tree_loop]. replace (len <=? 8) with true by lia.
    cbn [infos found_after fold_left fst]. now rewrite app_nil_r.
  - destruct fuel; [inversion HF|]. inversion HK; subst. inversion HC'; subst. rewrite encs_cons, lenN_app in *. rewrite <- app_assoc in HS.
    pose proof H1 as (_ & _ & X1 & X2 & _). cbn [tree_loop]. replace (_ <=? 8) with false by lia.
    rewrite (read_info_hd _ _ _ _ _ m HS H1); [|lia|now apply unbounded_avail]. cbn [bind a_ident a_len a_ext].
    rewrite skip_box by lia. cbn [bind]. rewrite adv_adv. replace (8 + (lenN (enc k) - 8)) with (lenN (enc k)) by lia.
    rewrite (IH fuel _ (adv (lenN (enc k)) r) _ _ rest); auto.
    + rewrite <- app_assoc, lenN_app, adv_pos. cbn [app infos].
      unfold found_after. cbn [fold_left]. change (lenN [mkAi (r_pos r) (lenN (enc k)) false (Fourcc (box_name k))]) with 1. reflexivity.
    + eapply sees_adv; eauto.
    + now apply unbounded_adv.
    + lia.
    + cbn in HF; lia.
Qed.
Lemma found_none : forall want ks n f, none_named want ks -> found_after want n ks f = f.
Proof.
  unfold found_after. induction ks as [|k ks IH]; intros n f H; cbn [fold_left]; auto. inversion H; subst.
  apply list_eqb_neq in H2. rewrite H2. now apply IH.
Qed.
Lemma found_app : forall want a b n f, found_after want n (a ++ b) f = found_after want (n + lenN a) b (found_after want n a f).
Proof.
  unfold found_after. induction a as [|x a IH]; intros b n f; cbn [app fold_left]. now rewrite N.add_0_r.
  rewrite IH, lenN_cons. do 3 f_equal. lia.
Qed.
Lemma found_one : forall want a b c n f, box_name b = want -> none_named want c -> found_after want n (a ++ b :: c) f = n + lenN a + 1.
Proof.
  intros. rewrite found_app. change (b :: c) with ([b] ++ c). rewrite found_app, found_none by auto.
  unfold found_after. cbn [fold_left fst]. rewrite H, list_eqb_refl. reflexivity.
Qed.
