(** Lemmas about the INFO list of WAV files ([IffModel.v]). *)
From Verif Require Import BaseLemmas StrLemmas TextProof IffModel IffSpec IffProof.

Definition filled (i : str * str) : bool := match snd i with [] => false | _ => true end.
Definition kept (t : riff) : riff := filter filled t.
Definition info_chunks (t : riff) : list (bytes * bytes) :=
  match t with [] => [] | _ => [($"LIST", $"INFO" ++ body false (map item_chunk (kept t)))] end.
Definition riff_ok (t : riff) : Prop := Forall (fun i => snd i = [] \/ item_ok i) t.
Lemma kept_ok : forall t, riff_ok t -> Forall item_ok (kept t).
Proof.
  induction 1 as [|i t H F IH]; [constructor|]. unfold kept. cbn [filter]. unfold filled at 1. destruct H as [->|O]. exact IH.
  destruct (snd i); [exact IH|]. constructor; auto.
Qed.
Lemma items_body : forall t, riff_ok t -> flat_map riff_item_bytes t = body false (map item_chunk (kept t)).
Proof.
  induction 1 as [|i t H F IH]; [reflexivity|]. cbn [flat_map]. rewrite IH. unfold kept. cbn [filter]. unfold filled at 2. destruct (snd i) eqn:E.
  - unfold riff_item_bytes. rewrite E. reflexivity.
  - destruct H as [H|O]; [congruence|]. cbn [map]. rewrite body_cons. now rewrite item_bytes_chunk.
Qed.
Lemma chunk_even : forall be c, chunk_ok c -> N.even (lenN (chunk_bytes be c)) = true.
Proof.
  intros be c O. rewrite chunk_bytes_len by auto. unfold pad_len. destruct (N.even (lenN (snd c))) eqn:E.
  - rewrite N.add_0_r, N.even_add, E. reflexivity.
  - rewrite !N.even_add, E. reflexivity.
Qed.
Lemma body_even : forall be cs, Forall chunk_ok cs -> N.even (lenN (body be cs)) = true.
Proof. induction 1 as [|c cs O F IH]; [reflexivity|]. rewrite body_cons, lenN_app, N.even_add, chunk_even, IH by auto. reflexivity. Qed.
Lemma items_ok : forall t, riff_ok t -> Forall chunk_ok (map item_chunk (kept t)).
Proof. intros t H. apply kept_ok in H. induction H; cbn [map]; constructor; auto using item_chunk_ok. Qed.
Lemma info_id : id_ok ($"LIST"). Proof. apply id_ok_valid. split; reflexivity. Qed.
Lemma create_info : forall t, riff_ok t -> lenN (body false (info_chunks t)) < 2 ^ 32 + 8 -> create_riff_info t = Ok (body false (info_chunks t)).
Proof.
  intros t O L. unfold create_riff_info, info_chunks in *. destruct t as [|i t]; [reflexivity|]. rewrite items_body by auto.
  set (b := body false (map item_chunk (kept (i :: t)))) in *.
  assert (EV : N.even (lenN ($"INFO" ++ b)) = true). { rewrite lenN_app, N.even_add. unfold b. rewrite body_even by now apply items_ok. reflexivity. }
  cbn [body flat_map] in L |- *. unfold chunk_bytes, pad_of in L |- *. cbn [fst snd] in L |- *. rewrite EV in L |- *. rewrite !app_nil_r in L |- *. rewrite !lenN_app in L. rewrite size32_len in L.
  change (lenN ($"LIST")) with 4 in L. rewrite lenN_app. unfold U32_MAX. change (2 ^ 32) with 4294967296 in *. change (2 ^ 32 - 1) with 4294967295 in *.
  destruct (N.ltb_spec 4294967295 (lenN ($"INFO") + lenN b)); [lia|]. rewrite <- lenN_app. unfold size32. reflexivity.
Qed.
Lemma info_chunks_ok : forall t, riff_ok t -> lenN (body false (info_chunks t)) < 2 ^ 32 -> Forall chunk_ok (info_chunks t).
Proof.
  intros t O L. unfold info_chunks in *. destruct t as [|i t]; constructor; auto. split; [exact info_id|]. cbn [body flat_map] in L.
  unfold chunk_bytes in L. cbn [fst snd] in *. rewrite !lenN_app in L. rewrite lenN_app. unfold body in *. lia.
Qed.

(** ** Saving *)
Lemma rewrite_all_spec : forall data new, apply_log data (rewrite_all new) = new.
Proof.
  intros. unfold rewrite_all, apply_log. cbn [fold_left apply_op]. unfold set_len, write_at. cbn [N.sub]. rewrite !takeN_0. cbn [N.to_nat repeat app]. rewrite lenN_nil. cbn [N.sub N.to_nat repeat app].
  rewrite dropN_all by (rewrite lenN_nil; lia). apply app_nil_r.
Qed.
Lemma riff_head : forall cs junk, riff_file cs ++ junk = ($"RIFF" ++ size32 false (4 + lenN (body false cs)) ++ $"WAVE") ++ body false cs ++ junk.
Proof. intros. unfold riff_file, iff_file. now rewrite <- !app_assoc. Qed.
Lemma head_len : forall n, lenN ($"RIFF" ++ size32 false n ++ $"WAVE") = 12.
Proof. intros. rewrite !lenN_app, size32_len. reflexivity. Qed.
Lemma riff_len : forall cs junk, lenN (riff_file cs ++ junk) = 12 + lenN (body false cs) + lenN junk.
Proof. intros. rewrite riff_head, !lenN_app, !size32_len. change (lenN ($"RIFF")) with 4. change (lenN ($"WAVE")) with 4. lia. Qed.
Lemma riff_rest : forall cs junk, dropN 12 (riff_file cs ++ junk) = body false cs ++ junk.
Proof. intros. rewrite riff_head. apply dropN_app. apply head_len. Qed.
Lemma patch_size : forall n x b, write_at 4 (le_enc 4 n) (($"RIFF" ++ size32 false x ++ $"WAVE") ++ b) = ($"RIFF" ++ size32 false n ++ $"WAVE") ++ b.
Proof.
  intros. unfold write_at. rewrite <- !app_assoc. rewrite takeN_app by reflexivity. rewrite le_enc_len.
  replace (4 - lenN ($"RIFF" ++ size32 false x ++ $"WAVE" ++ b)) with 0. 2:{ rewrite lenN_app. change (lenN ($"RIFF")) with 4. lia. }
  cbn [N.to_nat repeat app]. rewrite dropN_app_ge by (cbv; discriminate). change (4 + N.of_nat 4 - lenN ($"RIFF")) with 4.
  rewrite dropN_app by apply size32_len. reflexivity.
Qed.
Lemma splice_at : forall E a b c new, splice (E := E) (lenN a) (lenN a + lenN b) new (a ++ b ++ c) = Ok (a ++ new ++ c).
Proof.
  intros. unfold splice. rewrite !lenN_app. destruct (N.ltb_spec (lenN a + lenN b) (lenN a)); [lia|]. destruct (N.ltb_spec (lenN a + (lenN b + lenN c)) (lenN a + lenN b)); [lia|].
  cbn [orb]. rewrite takeN_app by reflexivity. rewrite (app_assoc a b c). rewrite dropN_app by apply lenN_app. reflexivity.
Qed.
Lemma splice_size : forall E n x b, splice (E := E) 4 8 (le_enc 4 n) (($"RIFF" ++ size32 false x ++ $"WAVE") ++ b) = Ok (($"RIFF" ++ size32 false n ++ $"WAVE") ++ b).
Proof.
  intros. assert (H := splice_at E ($"RIFF") (size32 false x) ($"WAVE" ++ b) (le_enc 4 n)). rewrite size32_len in H. rewrite <- !app_assoc. exact H.
Qed.

Lemma save_new : forall m cs junk t, Forall chunk_ok cs -> Forall list_ok cs -> Forall (fun c => is_info c = false) cs -> riff_ok t ->
  12 + lenN (body false cs) < 2 ^ 32 -> 4 + lenN (body false (cs ++ info_chunks t)) < 2 ^ 32 ->
  exists ops, write_riff_info m (riff_file cs ++ junk) t = Ok ops /\ apply_log (riff_file cs ++ junk) ops = riff_file (cs ++ info_chunks t) ++ junk.
Proof.
  intros m cs junk t OK LO NI RO L1 L2. unfold write_riff_info. change (2 ^ 32) with 4294967296 in *. rewrite body_app, lenN_app in L2. rewrite verify_wav_ok by (change (2 ^ 32) with 4294967296; lia). cbn [bind].
  rewrite create_info by (auto; change (2 ^ 32) with 4294967296; lia). cbn [bind]. change U32_MAX with 4294967295. rewrite riff_len, riff_rest.
  destruct (N.ltb_spec 4294967295 (4 + lenN (body false cs) + 8)); [lia|].
  destruct (N.ltb_spec (12 + lenN (body false cs) + lenN junk) (4 + lenN (body false cs) + 8)); [lia|].
  destruct (N.ltb_spec (4 + lenN (body false cs)) 4); [lia|].
  rewrite (find_info cs _ m _ (4 + lenN (body false cs) - 4) (4 + lenN (body false cs) - 4) None junk 12 None 0 OK LO NI); [| |lia| |lia].
  2:{ unfold chunks_new. apply skip_done. }
  2:{ pose proof (body_count cs OK). rewrite riff_head, !app_length. lia. }
  cbn [bind]. destruct (N.ltb_spec 4294967295 (lenN (body false (info_chunks t)) + (4 + lenN (body false cs)))); [lia|].
  assert (SP := splice_at iff_error (riff_file cs) [] junk (body false (info_chunks t))). rewrite lenN_nil, N.add_0_r in SP. cbn [app] in SP.
  replace (lenN (riff_file cs)) with (4 + lenN (body false cs) + 8) in SP. 2:{ rewrite <- (app_nil_r (riff_file cs)), riff_len, lenN_nil. lia. }
  rewrite SP. cbn [bind]. eexists. split. reflexivity. rewrite rewrite_all_spec, !riff_head, patch_size, body_app, lenN_app.
  replace (lenN (body false (info_chunks t)) + (4 + lenN (body false cs))) with (4 + (lenN (body false cs) + lenN (body false (info_chunks t)))) by lia. now rewrite <- !app_assoc.
Qed.
Lemma save_old : forall m a c b junk t, Forall chunk_ok (a ++ c :: b) -> Forall list_ok (a ++ [c]) -> Forall (fun c => is_info c = false) a -> is_info c = true -> riff_ok t ->
  N.even (lenN (snd c)) = true ->
  12 + lenN (body false (a ++ c :: b)) < 2 ^ 32 -> 4 + lenN (body false (a ++ info_chunks t ++ b)) < 2 ^ 32 ->
  exists ops, write_riff_info m (riff_file (a ++ c :: b) ++ junk) t = Ok ops /\ apply_log (riff_file (a ++ c :: b) ++ junk) ops = riff_file (a ++ info_chunks t ++ b) ++ junk.
Proof.
  intros m a c b junk t OK LO NI IC RO EV L1 L2. unfold write_riff_info. change (2 ^ 32) with 4294967296 in *.
  assert (CL : lenN (chunk_bytes false c) = 8 + lenN (snd c)).
  { apply Forall_app in OK as [_ OK]. inversion OK; subst. rewrite chunk_bytes_len by auto. unfold pad_len. rewrite EV. lia. }
  set (cs := a ++ c :: b) in *. assert (BL : lenN (body false cs) = lenN (body false a) + (8 + lenN (snd c)) + lenN (body false b)).
  { unfold cs. rewrite body_app, body_cons, !lenN_app, CL. lia. }
  rewrite !body_app, !lenN_app in L2. rewrite verify_wav_ok by (change (2 ^ 32) with 4294967296; lia). cbn [bind].
  rewrite create_info by (auto; change (2 ^ 32) with 4294967296; lia). cbn [bind]. change U32_MAX with 4294967295. rewrite riff_len, riff_rest.
  destruct (N.ltb_spec 4294967295 (4 + lenN (body false cs) + 8)); [lia|].
  destruct (N.ltb_spec (12 + lenN (body false cs) + lenN junk) (4 + lenN (body false cs) + 8)); [lia|].
  destruct (N.ltb_spec (4 + lenN (body false cs)) 4); [lia|].
  pose proof (body_count cs OK) as BC. assert (LA : (length a <= length cs)%nat) by (unfold cs; rewrite app_length; lia).
  assert (OA : Forall chunk_ok a) by (apply Forall_app in OK; tauto). assert (OC : chunk_ok c) by (apply Forall_app in OK as [_ OK]; now inversion OK).
  apply Forall_app in LO as [LOA LOC]. inversion LOC as [|? ? LC _]; subst.
  rewrite (find_info a _ m _ (4 + lenN (body false cs) - 4) (4 + lenN (body false cs) - 4) None (chunk_bytes false c ++ body false b ++ junk) 12 (Some c) 0 OA LOA NI); [| |lia| |].
  2:{ unfold chunks_new. rewrite skip_done. unfold fresh, cs. rewrite body_app, body_cons, <- !app_assoc. reflexivity. }
  2:{ rewrite riff_head, !app_length. lia. }
  2:{ exists (body false b ++ junk). refine (conj eq_refl (conj OC (conj LC (conj IC _)))). lia. }
  cbn [bind]. destruct (N.ltb_spec 4294967295 (8 + lenN (snd c))); [lia|]. destruct (N.ltb_spec (4 + lenN (body false cs)) (8 + lenN (snd c))); [lia|].
  destruct (N.ltb_spec 4294967295 (lenN (body false (info_chunks t)) + (4 + lenN (body false cs) - (8 + lenN (snd c))))); [lia|].
  set (h := $"RIFF" ++ size32 false (4 + lenN (body false cs)) ++ $"WAVE").
  assert (SP := splice_at iff_error (h ++ body false a) (chunk_bytes false c) (body false b ++ junk) (body false (info_chunks t))).
  replace (lenN (h ++ body false a)) with (12 + lenN (body false a) + 12 - 12) in SP. 2:{ unfold h. rewrite lenN_app, head_len. lia. }
  rewrite CL in SP. rewrite riff_head. fold h. unfold cs at 1. rewrite body_app, body_cons. rewrite <- !app_assoc in *. rewrite SP. cbn [bind].
  unfold h. rewrite splice_size. cbn [bind]. eexists. split. reflexivity. rewrite rewrite_all_spec, riff_head, !body_app, !lenN_app.
  replace (lenN (body false (info_chunks t)) + (4 + lenN (body false cs) - (8 + lenN (snd c)))) with (4 + (lenN (body false a) + (lenN (body false (info_chunks t)) + lenN (body false b)))) by lia.
  now rewrite <- !app_assoc.
Qed.
