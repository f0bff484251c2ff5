From Verif Require Import Base BaseLemmas Str StrLemmas TextModel TextSpec TextProof Mode PictureModel Mp4Model Mp4Spec.

(** ** Readers *)
Definition adv (n : N) (r : reader) : reader := mkRd (r_pos r + n) (consume n (r_bound r)).
Definition avail (n : N) (r : reader) : Prop := match r_bound r with None => True | Some b => n <= b_rem b end.
Definition sees (data : bytes) (r : reader) (l : bytes) : Prop := dropN (r_pos r) data = l.

Lemma consume_0 : forall b, consume 0 b = b.
Proof. intros [[? ? ?]|]; cbn; auto. rewrite N.sub_0_r. reflexivity. Qed.
Lemma consume_consume : forall n k b, consume k (consume n b) = consume (n + k) b.
Proof. intros n k [[? ? ?]|]; cbn; auto. do 2 f_equal. lia. Qed.
Lemma adv_0 : forall r, adv 0 r = r.
Proof. intros [p b]. unfold adv; cbn. rewrite N.add_0_r, consume_0. reflexivity. Qed.
Lemma adv_adv : forall n k r, adv k (adv n r) = adv (n + k) r.
Proof. intros. unfold adv; cbn. rewrite consume_consume. f_equal. lia. Qed.
Lemma adv_pos : forall n r, r_pos (adv n r) = r_pos r + n.
Proof. reflexivity. Qed.
Lemma avail_adv : forall n k r, avail (n + k) r -> avail k (adv n r).
Proof. intros n k [p [[? ? ?]|]]; cbn; auto. lia. Qed.
Lemma avail_le : forall n k r, k <= n -> avail n r -> avail k r.
Proof. intros n k [p [[? ? ?]|]]; cbn; auto. lia. Qed.
Lemma sees_adv : forall data r a b n, sees data r (a ++ b) -> lenN a = n -> sees data (adv n r) b.
Proof. unfold sees; intros. rewrite adv_pos, <- dropN_dropN, H. now apply dropN_app. Qed.
Lemma seek_adv : forall n r, seek_cur (Z.of_N n) r = Ok (adv n r).
Proof.
  intros n [p b]. unfold seek_cur, adv; cbn.
  destruct (Z.ltb_spec (Z.of_N p + Z.of_N n) 0); [lia|].
  f_equal. f_equal; [lia|]. destruct b as [[? ? ?]|]; cbn; auto.
  destruct (Z.ltb_spec (Z.of_N n) 0); [lia|]. rewrite N2Z.id. reflexivity.
Qed.

Lemma rd_inner_app : forall data r x rest n, sees data r (x ++ rest) -> lenN x = n -> rd_inner data n r = Ok (x, adv n r).
Proof. unfold sees, rd_inner; intros. rewrite H, (read_exact_app n) by auto. reflexivity. Qed.
Lemma rd_exact_app : forall data r x rest n, sees data r (x ++ rest) -> lenN x = n -> avail n r -> rd_exact data n r = Ok (x, adv n r).
Proof.
  intros. unfold rd_exact. destruct (N.eqb_spec n 0).
  - subst n. rewrite e in *. apply lenN_0 in e. subst. rewrite adv_0. reflexivity.
  - destruct r as [p [b|]]; cbn [r_bound] in *; [|now eapply rd_inner_app; eauto].
    unfold avail in H1; cbn in H1. destruct (N.eqb_spec (b_rem b) 0); [lia|]. eapply rd_inner_app; eauto.
Qed.
Lemma rd_be_app : forall data r k v rest n, sees data r (be_enc k v ++ rest) -> n = N.of_nat k -> v < 256 ^ n -> avail n r ->
  rd_be data n r = Ok (v, adv n r).
Proof.
  intros. unfold rd_be. rewrite (rd_exact_app _ _ _ _ _ H) by (rewrite ?be_enc_len; auto).
  cbn [bind]. rewrite be_dec_enc by (rewrite <- H0; auto). reflexivity.
Qed.
Lemma rd_be_own_app : forall data r k v rest n, sees data r (be_enc k v ++ rest) -> n = N.of_nat k -> v < 256 ^ n ->
  rd_be_own data n r = Ok (v, adv n r).
Proof.
  intros. unfold rd_be_own. rewrite (rd_inner_app _ _ _ _ _ H) by (rewrite ?be_enc_len; auto).
  cbn [bind]. rewrite be_dec_enc by (rewrite <- H0; auto). reflexivity.
Qed.

(** ** Headers *)
Lemma ident_bytes_ok : forall id, box_id id -> forallb valid_ident_byte id = true.
Proof.
  intros id [_ H]. apply forallb_forall. rewrite Forall_forall in H. intros x Hx. specialize (H x Hx).
  unfold valid_ident_byte. lia.
Qed.
Lemma read_head_box : forall data r id s rest size m, sees data r (be_enc 4 s ++ id ++ rest) -> box_id id -> 8 <= s < 2 ^ 32 ->
  s <= size + 8 -> avail 8 r ->
  read_head data size m r = Ok (Some (mkHd (r_pos r) s false id), adv 8 r).
Proof.
  intros. unfold read_head.
  assert (A0 : avail 4 r) by (apply (avail_le 8); [lia | exact H3]).
  assert (B0 : s < 256 ^ 4) by (change (256 ^ 4) with (2 ^ 32); lia).
  rewrite (rd_be_app _ _ _ _ _ 4 H eq_refl B0 A0).
  cbn [bind].
  assert (S1 : sees data (adv 4 r) (id ++ rest)) by (eapply sees_adv; [eauto|apply be_enc_len]).
  assert (A1 : avail 4 (adv 4 r)) by (apply avail_adv; exact H3).
  rewrite (rd_exact_app _ _ _ _ 4 S1 (proj1 H0) A1). cbn [bind].
  rewrite (ident_bytes_ok _ H0). cbn [negb].
  replace (s =? 0) with false by lia. replace (s =? 1) with false by lia. cbn [bind].
  replace (s <? 8) with false by lia. replace (size <? s - 8) with false by lia.
  rewrite adv_adv. reflexivity.
Qed.
Lemma read_info_box : forall data r id s rest size m, sees data r (be_enc 4 s ++ id ++ rest) -> box_id id -> id <> $"----" ->
  8 <= s < 2 ^ 32 -> s <= size + 8 -> avail 8 r ->
  read_info data size m r = Ok (Some (mkAi (r_pos r) s false (Fourcc id)), adv 8 r).
Proof.
  intros. unfold read_info. rewrite (read_head_box _ _ _ _ _ _ _ H H0 H2 H3 H4). cbn [bind h_id h_start h_len h_ext].
  apply list_eqb_neq in H1. rewrite H1. reflexivity.
Qed.
Lemma next_box : forall data r id s rest m b, sees data r (be_enc 4 s ++ id ++ rest) -> box_id id -> id <> $"----" ->
  8 <= s < 2 ^ 32 -> r_bound r = Some b -> 8 <= b_rem b -> s <= b_rem b + 8 ->
  next data m r = Ok (Some (mkAi (r_pos r) s false (Fourcc id)), adv 8 r).
Proof.
  intros. unfold next. rewrite H3. replace (b_rem b =? 0) with false by lia. replace (b_rem b <? 8) with false by lia.
  eapply read_info_box; eauto. unfold avail. rewrite H3. exact H4.
Qed.
Lemma skip_box : forall s r, 8 <= s < 2 ^ 32 -> skip_atom false s r = Ok (adv (s - 8) r).
Proof.
  intros. unfold skip_atom. cbn [negb]. rewrite N.mod_small by lia.
  replace (Z.of_N s - 8)%Z with (Z.of_N (s - 8)) by lia. apply seek_adv.
Qed.

(** ** Inside a reader whose bounds are the end of the data *)
Definition inside (data : bytes) (r : reader) (l : bytes) : Prop :=
  sees data r l /\ exists b, r_bound r = Some b /\ b_rem b = lenN l.
Lemma inside_adv : forall data r a b n, inside data r (a ++ b) -> lenN a = n -> inside data (adv n r) b.
Proof.
  intros data r a b n [S (bd & E & L)] H. split; [eapply sees_adv; eauto|].
  unfold adv; cbn. rewrite E. cbn. eexists. split; [reflexivity|]. cbn. rewrite L, lenN_app. lia.
Qed.
Lemma inside_avail : forall data r a b n, inside data r (a ++ b) -> lenN a = n -> avail n r.
Proof. intros data r a b n [_ (bd & E & L)] H. unfold avail. rewrite E, L, lenN_app. lia. Qed.
Lemma inside_start : forall data, inside data (atom_reader data) data.
Proof. intros. split. unfold sees; cbn. apply dropN_0. eexists. split; reflexivity. Qed.
Lemma inside_next : forall data r id c rest m, inside data r (sbox id c ++ rest) -> box_id id -> id <> $"----" ->
  8 + lenN c < 2 ^ 32 ->
  next data m r = Ok (Some (mkAi (r_pos r) (8 + lenN c) false (Fourcc id)), adv 8 r).
Proof.
  intros data r id c rest m [S (bd & E & L)] H1 H2 H3.
  assert (Q : lenN (sbox id c ++ rest) = 8 + lenN c + lenN rest).
  { rewrite lenN_app. unfold sbox. rewrite !lenN_app, be_enc_len, (proj1 H1). lia. }
  unfold sbox in S. rewrite <- !app_assoc in S.
  eapply next_box; eauto; lia.
Qed.
Lemma inside_end : forall data r m, inside data r [] -> next data m r = Ok (None, r).
Proof. intros data r m [S (bd & E & L)]. unfold next. rewrite E, L. reflexivity. Qed.
Lemma lenN_sbox : forall id c, lenN id = 4 -> lenN (sbox id c) = 8 + lenN c.
Proof. intros. unfold sbox. rewrite !lenN_app, be_enc_len, H. lia. Qed.
Lemma sbox_head : forall id c, sbox id c = (be_enc 4 (8 + lenN c) ++ id) ++ c.
Proof. intros. unfold sbox. now rewrite app_assoc. Qed.
Lemma head_len : forall id (c : bytes), lenN id = 4 -> lenN (be_enc 4 (8 + lenN c) ++ id) = 8.
Proof. intros. rewrite lenN_app, be_enc_len, H. reflexivity. Qed.
Lemma inside_body : forall data r id c rest, inside data r (sbox id c ++ rest) -> lenN id = 4 -> inside data (adv 8 r) (c ++ rest).
Proof. intros. rewrite sbox_head, <- app_assoc in H. eapply inside_adv; [eauto|]. now apply head_len. Qed.

Ltac idok := split; [reflexivity|]; repeat (apply Forall_cons; [vm_compute; intuition congruence|]); constructor.
Ltac idne := let H := fresh in intro H; vm_compute in H; discriminate H.
Lemma id_data : box_id ($"data").
Proof. idok. Qed.
Definition nonempty_value (v : N * bytes) : bool := match snd v with [] => false | _ => true end.
Lemma rd_inside : forall data r x rest, inside data r (x ++ rest) -> rd_exact data (lenN x) r = Ok (x, adv (lenN x) r).
Proof. intros. eapply rd_exact_app; [apply H|auto|]. eapply inside_avail; eauto. Qed.
Lemma len_dbox : forall v, lenN (dbox v) = 16 + lenN (snd v).
Proof. intros. unfold dbox. rewrite lenN_sbox by reflexivity. rewrite lenN_cons, !lenN_app, be_enc_len. change (lenN [0; 0; 0; 0]) with 4. lia. Qed.
Lemma type_indicator_dbox : forall data m r t rest, inside data r ((0 :: be_enc 3 t) ++ rest) -> t < 2 ^ 24 ->
  type_indicator data m r = Ok (Some t, adv 4 r).
Proof.
  intros. unfold type_indicator.
  assert (S1 : sees data r (be_enc 1 0 ++ be_enc 3 t ++ rest)) by (destruct H as [H _]; exact H).
  rewrite (rd_be_own_app _ _ _ _ _ 1 S1) by (auto; reflexivity). cbn [bind]. cbn [negb N.eqb].
  assert (S2 : sees data (adv 1 r) (be_enc 3 t ++ rest)) by (eapply sees_adv; [exact S1|reflexivity]).
  rewrite (rd_be_own_app _ _ _ _ _ 3 S2) by (auto; change (256 ^ 3) with (2 ^ 24); auto). cbn [bind].
  rewrite adv_adv. reflexivity.
Qed.
Lemma data_loop_boxes : forall data m l fuel to_read pos r acc rest,
  inside data r (flat_map dbox l ++ rest) -> Forall dbox_ok l -> to_read = pos + lenN (flat_map dbox l) -> (length l < fuel)%nat ->
  data_loop fuel data m to_read pos r acc = Ok (acc ++ filter nonempty_value l, adv (lenN (flat_map dbox l)) r).
Proof.
  intros data m. induction l as [|v l]; intros fuel to_read pos r acc rest HI HO HT HF.
  - change (lenN (flat_map dbox [])) with 0 in HT. destruct fuel; [cbn in HF; lia|]. cbn [data_loop]. replace (to_read <=? pos) with true by lia.
    cbn [filter flat_map]. rewrite app_nil_r. change (lenN []) with 0. rewrite adv_0. reflexivity.
  - destruct fuel; [cbn in HF; lia|]. cbn [flat_map] in *. rewrite lenN_app, len_dbox in HT. rewrite lenN_app, len_dbox.
    cbn [data_loop]. replace (to_read <=? pos) with false by lia.
    inversion HO as [|? ? [O1 O2] HO']; subst.
    rewrite <- app_assoc in HI. set (tl := flat_map dbox l ++ rest) in *.
    assert (L : 8 + lenN (0 :: be_enc 3 (fst v) ++ [0; 0; 0; 0] ++ snd v) = 16 + lenN (snd v)).
    { rewrite lenN_cons, !lenN_app, be_enc_len. change (lenN [0; 0; 0; 0]) with 4. lia. }
    unfold dbox in HI. rewrite (inside_next _ _ _ _ _ _ HI id_data) by (solve [idne] || lia).
    rewrite L. cbn [bind a_len a_ident a_ext is_fourcc]. replace (16 + lenN (snd v) <? 16) with false by lia.
    rewrite list_eqb_refl. cbn [negb].
    apply inside_body in HI; [|reflexivity].
    replace ((0 :: be_enc 3 (fst v) ++ [0; 0; 0; 0] ++ snd v) ++ tl) with ((0 :: be_enc 3 (fst v)) ++ [0; 0; 0; 0] ++ snd v ++ tl) in HI
      by (cbn [app]; rewrite <- !app_assoc; reflexivity).
    rewrite (type_indicator_dbox _ _ _ _ _ HI O1). cbn [bind].
    apply inside_adv with (n := 4) in HI; [|rewrite lenN_cons, be_enc_len; reflexivity].
    rewrite adv_adv in *. change 4%Z with (Z.of_N 4). rewrite seek_adv. cbn [bind].
    apply inside_adv with (n := 4) in HI; [|reflexivity]. rewrite adv_adv in *.
    replace (16 + lenN (snd v) - 16) with (lenN (snd v)) by lia.
    rewrite (rd_inside _ _ _ _ HI). cbn [bind].
    apply inside_adv with (n := lenN (snd v)) in HI; [|reflexivity]. rewrite adv_adv in *.
    replace (8 + 4 + 4 + lenN (snd v)) with (16 + lenN (snd v)) in * by lia.
    rewrite (IHl fuel _ _ _ _ rest HI HO') by (cbn in HF; lia). rewrite adv_adv. f_equal. f_equal.
    cbn [filter]. unfold nonempty_value at 2. destruct v as [t [|x c]]; cbn [snd fst]; auto. rewrite <- app_assoc. reflexivity.
Qed.

(** ** Freeform identifiers *)
Lemma text_decode : forall s, text_ok s -> utf8_decode (utf8_enc s) = Ok s.
Proof.
  intros s [H1 H2]. unfold utf8_decode. rewrite utf8_dec_enc by auto. f_equal. symmetry. apply trim_unique.
  split; auto. exists O. cbn. now rewrite app_nil_r.
Qed.
Lemma freeform_chunk_box : forall data m r name s rest size, inside data r (sbox name ([0; 0; 0; 0] ++ utf8_enc s) ++ rest) ->
  box_id name -> text_ok s -> 12 + lenN (utf8_enc s) < 2 ^ 32 -> 12 + lenN (utf8_enc s) <= size ->
  freeform_chunk data name size m r = Ok (s, size - (12 + lenN (utf8_enc s)), adv (12 + lenN (utf8_enc s)) r).
Proof.
  intros data m r name s rest size HI HN HT HL HS. unfold freeform_chunk.
  assert (L : 8 + lenN ([0; 0; 0; 0] ++ utf8_enc s) = 12 + lenN (utf8_enc s)) by (rewrite lenN_app; change (lenN [0; 0; 0; 0]) with 4; lia).
  assert (A : avail 8 r). { rewrite sbox_head, <- app_assoc in HI. eapply inside_avail; [exact HI|]. apply head_len, HN. }
  assert (S : sees data r (be_enc 4 (12 + lenN (utf8_enc s)) ++ name ++ ([0; 0; 0; 0] ++ utf8_enc s) ++ rest)).
  { destruct HI as [HI _]. unfold sbox in HI. rewrite L, <- !app_assoc in HI. rewrite <- app_assoc. exact HI. }
  rewrite (read_head_box _ _ _ _ _ size m S HN) by (auto; lia). cbn [bind h_id h_len].
  rewrite list_eqb_refl. cbn [negb].
  replace (12 + lenN (utf8_enc s) <? 12) with false by lia. replace (size <? 12 + lenN (utf8_enc s)) with false by lia.
  change 4%Z with (Z.of_N 4). rewrite seek_adv. cbn [bind].
  apply inside_body in HI; [|apply HN]. rewrite <- app_assoc in HI.
  apply inside_adv with (n := 4) in HI; [|reflexivity]. rewrite adv_adv in *.
  replace (12 + lenN (utf8_enc s) - 12) with (lenN (utf8_enc s)) by lia. rewrite (rd_inside _ _ _ _ HI). cbn [bind].
  rewrite text_decode by auto. cbn [mtext bind]. rewrite adv_adv. repeat f_equal; lia.
Qed.
Lemma parse_freeform_boxes : forall data m r mean name rest size, inside data r (name_boxes mean name ++ rest) ->
  text_ok mean -> text_ok name -> 24 + lenN (utf8_enc mean) + lenN (utf8_enc name) <= size -> size < 2 ^ 32 ->
  parse_freeform data size m r = Ok (Freeform mean name, adv (24 + lenN (utf8_enc mean) + lenN (utf8_enc name)) r).
Proof.
  intros data m r mean name rest size HI H1 H2 HS HB. unfold parse_freeform, name_boxes in *. rewrite <- app_assoc in HI.
  replace (size <? 24) with false by lia.
  assert (J1 : box_id ($"mean")) by idok. assert (J2 : box_id ($"name")) by idok.
  rewrite (freeform_chunk_box _ _ _ _ _ _ _ HI) by (auto; lia). cbn [bind].
  apply inside_adv with (n := 12 + lenN (utf8_enc mean)) in HI; [|rewrite lenN_sbox, lenN_app by reflexivity; change (lenN [0; 0; 0; 0]) with 4; lia].
  rewrite (freeform_chunk_box _ _ _ _ _ _ _ HI) by (auto; lia). cbn [bind]. rewrite adv_adv. do 3 f_equal. lia.
Qed.
