(** Lemmas about [AiffModel.v]. *)
From Verif Require Import BaseLemmas StrLemmas TextProof IffModel IffSpec IffProof IffProof2 IffProof3 IffProof4 AiffModel.

Lemma even_pad : forall n : N, N.even (n + (if N.even n then 0 else 1)) = true.
Proof. intro n. destruct (N.even n) eqn:E. now rewrite N.add_0_r. rewrite N.even_add, E. reflexivity. Qed.
(** ** Writing the text chunks *)
Definition cmt_pad (b : bytes) : bytes := if N.even (lenN b) then [] else [0].
Definition one_comment (c : comment) : bytes :=
  let b := utf8_enc (ct_text c) in be_enc 4 (ct_time c) ++ be_enc 2 (ct_marker c) ++ be_enc 2 (lenN b) ++ b ++ cmt_pad b.
Definition comt_content (l : list comment) : bytes := be_enc 2 (lenN l) ++ flat_map one_comment l.
Definition opt_chunk (key : bytes) (v : option str) : list (bytes * bytes) := match v with Some s => [(key, utf8_enc s)] | None => [] end.
Definition text_chunks (t : aiff_text) : list (bytes * bytes) :=
  match at_comments t with Some (c :: l) => [($"COMT", comt_content (c :: l))] | _ => [] end
  ++ opt_chunk ($"NAME") (at_name t) ++ opt_chunk ($"AUTH") (at_author t) ++ opt_chunk ($"(c) ") (at_copy t)
  ++ match at_anno t with Some l => map (fun a => ($"ANNO", utf8_enc a)) l | None => [] end.
Definition value_ok (s : str) : Prop := str_ok s /\ last s 1 <> 0 /\ lenN (utf8_enc s) < 2 ^ 32.
Definition opt_ok (o : option str) : Prop := match o with Some s => value_ok s | None => True end.
Definition comment_ok (c : comment) : Prop := ct_time c < 2 ^ 32 /\ ct_marker c < 2 ^ 16 /\ str_ok (ct_text c) /\ last (ct_text c) 1 <> 0 /\ lenN (utf8_enc (ct_text c)) < 2 ^ 16.
Definition text_ok (t : aiff_text) : Prop :=
  opt_ok (at_name t) /\ opt_ok (at_author t) /\ opt_ok (at_copy t) /\
  match at_anno t with Some l => Forall value_ok l | None => True end /\
  match at_comments t with Some l => Forall comment_ok l /\ lenN l < 2 ^ 16 /\ lenN (comt_content l) < 2 ^ 32 | None => True end.

Lemma text_chunk_body : forall key v, opt_ok v -> text_chunk key v = body true (opt_chunk key v).
Proof.
  intros key [s|] O; [|reflexivity]. destruct O as (_ & _ & L). cbn [text_chunk opt_chunk body flat_map]. rewrite app_nil_r. change U32_MAX with 4294967295. change (2 ^ 32) with 4294967296 in L.
  destruct (N.ltb_spec 4294967295 (lenN (utf8_enc s))); [lia|]. reflexivity.
Qed.
Lemma anno_body : forall l, Forall value_ok l -> flat_map (fun a => text_chunk ($"ANNO") (Some a)) l = body true (map (fun a => ($"ANNO", utf8_enc a)) l).
Proof.
  induction 1 as [|a l O F IH]; [reflexivity|]. cbn [flat_map map]. rewrite IH, body_cons. f_equal. rewrite text_chunk_body by exact O. cbn [opt_chunk body flat_map]. apply app_nil_r.
Qed.
Lemma comments_bytes : forall l, Forall comment_ok l -> comment_bytes l = Ok (flat_map one_comment l).
Proof.
  induction 1 as [|c l O F IH]; [reflexivity|]. destruct O as (_ & _ & _ & _ & L). cbn [comment_bytes flat_map]. change U16_MAX with 65535. change (2 ^ 16) with 65536 in L.
  destruct (N.ltb_spec 65535 (lenN (utf8_enc (ct_text c)))); [lia|]. rewrite IH. cbn [bind]. unfold one_comment, cmt_pad. now rewrite <- !app_assoc.
Qed.
Lemma one_len : forall c, lenN (one_comment c) = 8 + lenN (utf8_enc (ct_text c)) + (if N.even (lenN (utf8_enc (ct_text c))) then 0 else 1).
Proof.
  intro c. unfold one_comment, cmt_pad. rewrite !lenN_app, !be_enc_len. destruct (N.even _); rewrite ?lenN_cons, lenN_nil; lia.
Qed.
Lemma one_even : forall c, N.even (lenN (one_comment c)) = true.
Proof. intro c. rewrite one_len, <- N.add_assoc, N.even_add, even_pad. reflexivity. Qed.
Lemma comt_even : forall l, N.even (lenN (comt_content l)) = true.
Proof.
  intro l. unfold comt_content. rewrite lenN_app, be_enc_len, N.even_add. assert (H : N.even (lenN (flat_map one_comment l)) = true).
  { induction l as [|c l IH]; [reflexivity|]. cbn [flat_map]. rewrite lenN_app, N.even_add, IH, one_even. reflexivity. }
  rewrite H. reflexivity.
Qed.
Lemma create_text_ok : forall t, text_ok t -> create_text_chunks t = Ok (body true (text_chunks t)).
Proof.
  intros t (O1 & O2 & O3 & O4 & O5). unfold create_text_chunks, text_chunks.
  assert (C : comt_part (at_comments t) = Ok (body true (match at_comments t with Some (c :: l) => [($"COMT", comt_content (c :: l))] | _ => [] end))).
  { unfold comt_part. destruct (at_comments t) as [[|c l]|]; try reflexivity. destruct O5 as (OC & L1 & L2). change U16_MAX with 65535. change U32_MAX with 4294967295. change (2 ^ 16) with 65536 in L1. change (2 ^ 32) with 4294967296 in L2.
    destruct (N.ltb_spec 65535 (lenN (c :: l))); [lia|]. rewrite comments_bytes by auto. cbn [bind].
    assert (CL : lenN (comt_content (c :: l)) = 2 + lenN (flat_map one_comment (c :: l))) by (unfold comt_content; rewrite lenN_app, be_enc_len; lia). rewrite <- CL.
    destruct (N.ltb_spec 4294967295 (lenN (comt_content (c :: l)))); [lia|]. cbn [body flat_map]. rewrite app_nil_r. unfold chunk_bytes, pad_of. cbn [fst snd]. rewrite comt_even. rewrite !app_nil_r. reflexivity. }
  rewrite C. cbn [bind]. rewrite !body_app, !text_chunk_body by auto. do 5 f_equal. destruct (at_anno t); [now apply anno_body|reflexivity].
Qed.
Lemma id_by : forall id, lenN id = 4 -> valid_fourcc id = true -> id_ok id. Proof. intros. now apply id_ok_valid. Qed.
Lemma text_chunks_ok : forall t, text_ok t -> Forall chunk_ok (text_chunks t).
Proof.
  intros t (O1 & O2 & O3 & O4 & O5). unfold text_chunks.
  assert (OC : forall key v, id_ok key -> opt_ok v -> Forall chunk_ok (opt_chunk key v)). { intros key [s|] K O; constructor; auto. split; [exact K|apply O]. }
  repeat (apply Forall_app; split); try (apply OC; auto; now apply id_by).
  - destruct (at_comments t) as [[|c l]|]; constructor; auto. split; [now apply id_by|]. apply O5.
  - destruct (at_anno t) as [l|]; auto. induction O4; cbn [map]; constructor; auto. split; [now apply id_by|]. apply H.
Qed.
Lemma text_chunks_text : forall t, Forall (fun c => is_text_id (fst c) = true) (text_chunks t).
Proof.
  intro t. unfold text_chunks. repeat (apply Forall_app; split).
  - destruct (at_comments t) as [[|c l]|]; repeat constructor.
  - destruct (at_name t); repeat constructor.
  - destruct (at_author t); repeat constructor.
  - destruct (at_copy t); repeat constructor.
  - destruct (at_anno t) as [l|]; [|constructor]. induction l; constructor; auto.
Qed.

(** ** Finding the text chunks *)
Fixpoint ranges (pos : N) (cs : list (bytes * bytes)) : list (N * N) :=
  match cs with
  | [] => []
  | c :: cs => let e := pos + lenN (chunk_bytes true c) in (if is_text_id (fst c) then [(pos, e)] else []) ++ ranges e cs
  end.
Fixpoint comm_end (pos : N) (cs : list (bytes * bytes)) (acc : option N) : option N :=
  match cs with
  | [] => acc
  | c :: cs => let e := pos + lenN (chunk_bytes true c) in comm_end e cs (if list_eqb (fst c) ($"COMM") then Some e else acc)
  end.
Lemma find_texts : forall cs fuel m s total rem more pos texts comm k, Forall chunk_ok cs ->
  skip s = Ok (fresh total rem None (body true cs ++ more) pos) -> rem = lenN (body true cs) + k -> k < 8 -> rem <= total -> (length cs < fuel)%nat ->
  find_text_chunks fuel m s texts comm = Ok (texts ++ ranges (total - rem + 12) cs, comm_end (total - rem + 12) cs comm).
Proof.
  induction cs as [|c cs IH]; intros fuel m s total rem more pos texts comm k OK SK R K RT F; (destruct fuel as [|fuel]; [cbn [length] in F; lia|]); cbn [find_text_chunks].
  - cbn [body flat_map app] in *. rewrite lenN_nil in R. rewrite (next_none _ m s total rem None more pos SK) by lia. cbn [bind ranges comm_end]. now rewrite app_nil_r.
  - inversion OK as [|? ? O1 O2]; subst. rewrite body_cons, <- app_assoc in SK. rewrite body_cons, lenN_app in *.
    set (rem := lenN (chunk_bytes true c) + lenN (body true cs) + k) in *. assert (R1 : lenN (chunk_bytes true c) <= rem) by (unfold rem; lia).
    rewrite (next_at true m s total rem None c _ pos SK) by auto. cbn [bind k_fourcc k_start].
    assert (SI := skip_inside true total rem None c (body true cs ++ more) pos O1 R1).
    assert (E : total - (rem - lenN (chunk_bytes true c)) + 12 = total - rem + 12 + lenN (chunk_bytes true c)) by lia.
    assert (IH' : forall s' tx cm, skip s' = Ok (fresh total (rem - lenN (chunk_bytes true c)) None (body true cs ++ more) (pos + lenN (chunk_bytes true c))) ->
      find_text_chunks fuel m s' tx cm = Ok (tx ++ ranges (total - rem + 12 + lenN (chunk_bytes true c)) cs, comm_end (total - rem + 12 + lenN (chunk_bytes true c)) cs cm)).
    { intros s' tx cm SK'. rewrite <- E. apply (IH fuel m s' total (rem - lenN (chunk_bytes true c)) more (pos + lenN (chunk_bytes true c)) tx cm k); auto; try lia. cbn [length] in F. lia. }
    cbn [ranges comm_end]. destruct (is_text_id (fst c)) eqn:T.
    + rewrite SI. cbn [bind]. rewrite IH' by apply skip_done. unfold c_position, fresh. cbn [c_total c_rem].
      assert (NC : list_eqb (fst c) ($"COMM") = false). { apply list_eqb_neq. intro Q. rewrite Q in T. discriminate T. }
      rewrite NC, E, <- app_assoc. reflexivity.
    + destruct (list_eqb (fst c) ($"COMM")).
      * rewrite SI. cbn [bind]. rewrite IH' by apply skip_done. unfold c_position, fresh. cbn [c_total c_rem app]. now rewrite E.
      * rewrite IH' by exact SI. reflexivity.
Qed.
Lemma ranges_ge : forall cs pos r, In r (ranges pos cs) -> pos <= fst r.
Proof.
  induction cs as [|c cs IH]; intros pos r I; cbn [ranges] in I; [contradiction|]. apply in_app_or in I as [I|I].
  - destruct (is_text_id (fst c)); [|contradiction]. destruct I as [<-|[]]. cbn [fst]. lia.
  - apply IH in I. lia.
Qed.
Lemma insert_first : forall r l, (forall x, In x l -> fst r <= fst x) -> insert_range r l = r :: l.
Proof. intros r [|x l] H; [reflexivity|]. cbn [insert_range]. destruct (N.leb_spec (fst r) (fst x)); [reflexivity|]. specialize (H x (or_introl eq_refl)). lia. Qed.
Lemma sorted_ranges : forall cs pos, sort_ranges (ranges pos cs) = ranges pos cs.
Proof.
  induction cs as [|c cs IH]; intro pos; [reflexivity|]. cbn [ranges]. unfold sort_ranges in *. destruct (is_text_id (fst c)); cbn [app fold_right]; rewrite IH; auto.
  apply insert_first. intros x I. apply ranges_ge in I. cbn [fst]. lia.
Qed.
Definition not_text (c : bytes * bytes) : bool := negb (is_text_id (fst c)).
(** Removing all of them, from the last. *)
Lemma drain_app : forall l1 l2 v, drain_all (l1 ++ l2) v = (let? x := drain_all l1 v in drain_all l2 x).
Proof. induction l1 as [|[a b] l1 IH]; intros; cbn [app drain_all]. reflexivity. destruct (splice a b [] v); cbn [bind]; auto. Qed.
Lemma drain_texts : forall cs h more, drain_all (rev (ranges (lenN h) cs)) (h ++ body true cs ++ more) = Ok (h ++ body true (filter not_text cs) ++ more).
Proof.
  induction cs as [|c cs IH]; intros h more; [reflexivity|]. cbn [ranges filter]. unfold not_text at 1. rewrite body_cons, <- lenN_app, rev_app_distr, drain_app.
  rewrite <- app_assoc. assert (I := IH (h ++ chunk_bytes true c) more). rewrite <- app_assoc in I. rewrite I. cbn [bind].
  destruct (is_text_id (fst c)); cbn [negb rev app drain_all].
  - rewrite <- app_assoc. rewrite lenN_app. rewrite splice_at. reflexivity.
  - rewrite body_cons, <- !app_assoc. reflexivity.
Qed.

(** ** Saving *)
Definition form_file := iff_file true ($"FORM").
Definition aiff_kind (kind : bytes) : Prop := kind = $"AIFF" \/ kind = $"AIFC".
Lemma aiff_kind_len : forall kind, aiff_kind kind -> lenN kind = 4. Proof. intros kind [-> | ->]; reflexivity. Qed.
Lemma verify_aiff_ok : forall kind cs junk, aiff_kind kind -> verify_aiff (form_file kind cs ++ junk) = Ok (list_eqb kind ($"AIFC"), body true cs ++ junk).
Proof.
  intros kind cs junk K. unfold verify_aiff, form_file. rewrite iff_head. assert (KL := aiff_kind_len _ K).
  rewrite read_exact_app by (now apply head_len4). cbn [iord bind]. unfold hdr. rewrite takeN_app by reflexivity. rewrite list_eqb_refl. cbn [negb].
  rewrite dropN_app_ge by (cbv; discriminate). change (8 - lenN ($"FORM")) with 4. rewrite dropN_app by apply size32_len. destruct K as [-> | ->]; reflexivity.
Qed.
Lemma form_len : forall kind cs junk, aiff_kind kind -> lenN (form_file kind cs ++ junk) = 12 + lenN (body true cs) + lenN junk.
Proof. intros. unfold form_file. rewrite lenN_app, iff_len by (auto using aiff_kind_len). reflexivity. Qed.
Lemma splice_head : forall n x kind b, splice (E := iff_error) 4 8 (be_enc 4 n) (hdr true ($"FORM") x kind ++ b) = Ok (hdr true ($"FORM") n kind ++ b).
Proof.
  intros. unfold hdr. assert (H := splice_at iff_error ($"FORM") (size32 true x) (kind ++ b) (be_enc 4 n)). rewrite size32_len in H. rewrite <- !app_assoc. exact H.
Qed.
Lemma resize : forall kind n cs junk, aiff_kind kind -> 4 + lenN (body true cs) + lenN junk < 2 ^ 32 ->
  (let? v := splice (E := iff_error) 4 8 (be_enc 4 (as_u32 (lenN (hdr true ($"FORM") n kind ++ body true cs ++ junk) - 8))) (hdr true ($"FORM") n kind ++ body true cs ++ junk) in Ok (rewrite_all v)) =
  Ok (rewrite_all (hdr true ($"FORM") (4 + lenN (body true cs) + lenN junk) kind ++ body true cs ++ junk)).
Proof.
  intros kind n cs junk K L. rewrite splice_head. cbn [bind]. do 3 f_equal. f_equal. rewrite !lenN_app, head_len4 by (auto using aiff_kind_len). unfold as_u32. rewrite N.mod_small; [lia|]. change (2 ^ 32) with 4294967296 in *. lia.
Qed.
Lemma comm_end_last : forall cs pos acc, comm_end pos cs acc = match comm_end pos cs None with Some e => Some e | None => acc end.
Proof.
  induction cs as [|c cs IH]; intros pos acc; [reflexivity|]. cbn [comm_end]. rewrite IH. rewrite (IH _ (if list_eqb (fst c) ($"COMM") then _ else None)). destruct (comm_end _ cs None); auto. now destruct (list_eqb (fst c) ($"COMM")).
Qed.
Lemma comm_end_none : forall cs pos acc, Forall (fun c => fst c <> $"COMM") cs -> comm_end pos cs acc = acc.
Proof. induction cs as [|c cs IH]; intros pos acc H; [reflexivity|]. inversion H; subst. cbn [comm_end]. rewrite IH by auto. apply list_eqb_neq in H2. now rewrite H2. Qed.
Lemma comm_end_app : forall a b pos acc, comm_end pos (a ++ b) acc = comm_end (pos + lenN (body true a)) b (comm_end pos a acc).
Proof.
  induction a as [|c a IH]; intros; cbn [app comm_end]. cbn [body flat_map]. now rewrite lenN_nil, N.add_0_r. rewrite IH, body_cons, lenN_app. f_equal. lia.
Qed.
Lemma ranges_app : forall a b pos, ranges pos (a ++ b) = ranges pos a ++ ranges (pos + lenN (body true a)) b.
Proof.
  induction a as [|c a IH]; intros; cbn [app ranges]. cbn [body flat_map]. now rewrite lenN_nil, N.add_0_r. rewrite IH, body_cons, lenN_app, <- app_assoc. do 3 f_equal. lia.
Qed.
Lemma ranges_none : forall cs pos, Forall (fun c => not_text c = true) cs -> ranges pos cs = [].
Proof. induction cs as [|c cs IH]; intros pos H; [reflexivity|]. inversion H; subst. cbn [ranges]. unfold not_text in H2. destruct (is_text_id (fst c)); [discriminate|]. now apply IH. Qed.

Section SAVE.
Context (m : pmode) (kind junk : bytes) (t : aiff_text) (K : aiff_kind kind) (J : lenN junk < 8) (TO : text_ok t).
Lemma find_in_file : forall cs, Forall chunk_ok cs ->
  find_text_chunks (S (length (form_file kind cs ++ junk))) m (chunks_new (body true cs ++ junk) 12 (lenN (form_file kind cs ++ junk) - 12)) [] None = Ok (ranges 12 cs, comm_end 12 cs None).
Proof.
  intros cs OK. rewrite form_len by auto. set (rem := 12 + lenN (body true cs) + lenN junk - 12).
  rewrite (find_texts cs _ m _ rem rem junk 12 [] None (lenN junk) OK); auto; try (unfold rem; lia).
  - cbn [app]. now rewrite N.sub_diag.
  - pose proof (body_count_be true cs OK). unfold form_file. rewrite iff_head, !app_length. lia.
Qed.
Lemma save_text_new : forall a c b, Forall chunk_ok (a ++ c :: b) -> Forall (fun c => not_text c = true) (a ++ c :: b) -> fst c = $"COMM" -> Forall (fun c => fst c <> $"COMM") b ->
  4 + lenN (body true (a ++ c :: text_chunks t ++ b)) + lenN junk < 2 ^ 32 ->
  exists ops, write_aiff_text m (form_file kind (a ++ c :: b) ++ junk) t = Ok ops /\
    apply_log (form_file kind (a ++ c :: b) ++ junk) ops = hdr true ($"FORM") (4 + lenN (body true (a ++ c :: text_chunks t ++ b)) + lenN junk) kind ++ body true (a ++ c :: text_chunks t ++ b) ++ junk.
Proof.
  intros a c b OK NT C NB L. unfold write_aiff_text. rewrite verify_aiff_ok by auto. cbn [bind]. rewrite create_text_ok by auto. cbn [bind]. rewrite find_in_file by auto. cbn [bind].
  rewrite ranges_none by auto. rewrite comm_end_app. cbn [comm_end]. rewrite C, list_eqb_refl, comm_end_none by auto. cbn [sort_ranges fold_right rev].
  unfold form_file. rewrite iff_head. set (h := hdr true ($"FORM") (4 + lenN (body true (a ++ c :: b))) kind). assert (HL : lenN h = 12) by (apply head_len4; auto using aiff_kind_len).
  assert (SP := splice_at iff_error (h ++ body true a ++ chunk_bytes true c) [] (body true b ++ junk) (body true (text_chunks t))). rewrite lenN_nil, N.add_0_r, !lenN_app, HL in SP. cbn [app] in SP.
  rewrite <- !app_assoc in SP. rewrite N.add_assoc in SP. rewrite body_app, body_cons, <- !app_assoc, SP. cbn [bind].
  assert (BE : body true a ++ chunk_bytes true c ++ body true (text_chunks t) ++ body true b ++ junk = body true (a ++ c :: text_chunks t ++ b) ++ junk) by (rewrite body_app, body_cons, body_app, <- !app_assoc; reflexivity).
  rewrite BE. unfold h. rewrite resize by auto. eexists. split. reflexivity. apply rewrite_all_spec.
Qed.
Lemma save_text_old : forall a c b, Forall chunk_ok (a ++ c :: b) -> Forall (fun c => not_text c = true) a -> is_text_id (fst c) = true -> Exists (fun c => fst c = $"COMM") (a ++ c :: b) ->
  4 + lenN (body true (a ++ text_chunks t ++ filter not_text b)) + lenN junk < 2 ^ 32 ->
  exists ops, write_aiff_text m (form_file kind (a ++ c :: b) ++ junk) t = Ok ops /\
    apply_log (form_file kind (a ++ c :: b) ++ junk) ops = hdr true ($"FORM") (4 + lenN (body true (a ++ text_chunks t ++ filter not_text b)) + lenN junk) kind ++ body true (a ++ text_chunks t ++ filter not_text b) ++ junk.
Proof.
  intros a c b OK NT C EX L. unfold write_aiff_text. rewrite verify_aiff_ok by auto. cbn [bind]. rewrite create_text_ok by auto. cbn [bind]. rewrite find_in_file by auto. cbn [bind].
  assert (CE : exists e, comm_end 12 (a ++ c :: b) None = Some e).
  { clear -EX. generalize 12 as pos. generalize (@None N) as acc. induction EX as [x l H|x l H IH]; intros acc pos; cbn [comm_end].
    - rewrite H, list_eqb_refl, comm_end_last. destruct (comm_end _ l None); eauto.
    - apply IH. }
  destruct CE as (e & CE). rewrite CE. clear CE. rewrite sorted_ranges, ranges_app, ranges_none by auto. cbn [ranges app]. rewrite C. cbn [app rev].
  set (p := 12 + lenN (body true a)).
  assert (ML : forall (l : list (N * N)) x, match l ++ [x] with [] => splice (E := iff_error) 0 0 [] [] | _ :: _ => let? v := drain_all (removelast (l ++ [x])) (form_file kind (a ++ c :: b) ++ junk) in splice (fst (last (l ++ [x]) (0, 0))) (snd (last (l ++ [x]) (0, 0))) (body true (text_chunks t)) v end =
    (let? v := drain_all l (form_file kind (a ++ c :: b) ++ junk) in splice (fst x) (snd x) (body true (text_chunks t)) v)).
  { intros l x. rewrite removelast_last, last_last. destruct l; reflexivity. }
  specialize (ML (rev (ranges (p + lenN (chunk_bytes true c)) b)) (p, p + lenN (chunk_bytes true c))).
  destruct (rev (ranges (p + lenN (chunk_bytes true c)) b) ++ [(p, p + lenN (chunk_bytes true c))]) eqn:RE. { destruct (rev (ranges (p + lenN (chunk_bytes true c)) b)); discriminate. }
  cbv iota in ML. rewrite ML. clear ML RE. cbn [fst snd].
  unfold form_file. rewrite iff_head. set (h := hdr true ($"FORM") (4 + lenN (body true (a ++ c :: b))) kind). assert (HL : lenN h = 12) by (apply head_len4; auto using aiff_kind_len).
  assert (D := drain_texts b (h ++ body true a ++ chunk_bytes true c) junk). rewrite !lenN_app, HL in D. replace (12 + (lenN (body true a) + lenN (chunk_bytes true c))) with (p + lenN (chunk_bytes true c)) in D by (unfold p; lia).
  rewrite <- !app_assoc in D. rewrite body_app, body_cons, <- !app_assoc, D. cbn [bind].
  assert (SP := splice_at iff_error (h ++ body true a) (chunk_bytes true c) (body true (filter not_text b) ++ junk) (body true (text_chunks t))). rewrite lenN_app, HL in SP. fold p in SP. rewrite <- !app_assoc in SP. rewrite SP. cbn [bind].
  assert (BE : body true a ++ body true (text_chunks t) ++ body true (filter not_text b) ++ junk = body true (a ++ text_chunks t ++ filter not_text b) ++ junk) by (rewrite !body_app, <- !app_assoc; reflexivity).
  rewrite BE. unfold h. rewrite resize by auto. eexists. split. reflexivity. apply rewrite_all_spec.
Qed.
End SAVE.
