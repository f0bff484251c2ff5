(** Lemmas about ID3v2 chunks ([write_id3_chunk] of [IffModel.v]). *)
From Verif Require Import BaseLemmas StrLemmas TextProof IffModel IffSpec IffProof IffProof2 IffProof3.
From Verif Require FlacMoveThm.

Lemma find_id3 : forall a fuel be m s total rem lk more pos found k, Forall chunk_ok a -> Forall (fun c => id3_id (fst c) = false) a ->
  skip s = Ok (fresh total rem lk (body be a ++ more) pos) -> lenN (body be a) <= rem -> rem <= total -> (length a < fuel)%nat ->
  match found with
  | None => rem - lenN (body be a) = k /\ k < 8
  | Some c => exists more', more = chunk_bytes be c ++ more' /\ chunk_ok c /\ id3_id (fst c) = true /\ lenN (body be a) + lenN (chunk_bytes be c) <= rem
  end ->
  find_id3_chunk fuel be m s = Ok (match found with None => None | Some c => Some (total - rem + lenN (body be a) + 12, total - rem + lenN (body be a) + lenN (chunk_bytes be c) + 12) end).
Proof.
  induction a as [|c a IH]; intros fuel be m s total rem lk more pos found k OK NI SK R RT F FD; (destruct fuel as [|fuel]; [cbn [length] in F; lia|]); cbn [find_id3_chunk].
  - cbn [body flat_map app] in *. change (lenN (@nil N)) with 0 in *. destruct found as [c|].
    + destruct FD as (more' & -> & CO & I & R2). rewrite (next_at be m s total rem lk c more' pos) by (auto; lia). cbn [bind k_fourcc k_size k_start].
      unfold id3_id in I. rewrite I. rewrite skip_inside by (auto; lia). cbn [bind]. unfold c_position, fresh. cbn [c_total c_rem]. do 3 f_equal; lia.
    + destruct FD. rewrite (next_none _ m s total rem lk more pos) by (auto; lia). reflexivity.
  - inversion OK as [|? ? O1 O2]; subst. inversion NI as [|? ? N1 N2]; subst.
    rewrite body_cons, <- app_assoc in SK. rewrite body_cons, lenN_app in R, FD |- *.
    rewrite (next_at be m s total rem lk c (body be a ++ more) pos) by (auto; lia). cbn [bind k_fourcc k_size k_start].
    unfold id3_id in N1. rewrite N1.
    assert (FD' : match found with
      | None => rem - lenN (chunk_bytes be c) - lenN (body be a) = k /\ k < 8
      | Some c0 => exists more', more = chunk_bytes be c0 ++ more' /\ chunk_ok c0 /\ id3_id (fst c0) = true /\ lenN (body be a) + lenN (chunk_bytes be c0) <= rem - lenN (chunk_bytes be c)
      end).
    { destruct found; [|lia]. destruct FD as (more' & A & B & D & E). exists more'. refine (conj A (conj B (conj D _))). lia. }
    assert (R1 : lenN (chunk_bytes be c) <= rem) by lia.
    assert (R2 : lenN (body be a) <= rem - lenN (chunk_bytes be c)) by lia. assert (F2 : (length a < fuel)%nat) by (cbn [length] in F; lia).
    assert (R3 : rem - lenN (chunk_bytes be c) <= total) by lia.
    rewrite (IH fuel be m _ total (rem - lenN (chunk_bytes be c)) lk more (pos + lenN (chunk_bytes be c)) found k O2 N2 (skip_inside _ _ _ _ _ _ _ O1 R1) R2 R3 F2 FD').
    destruct found; do 3 f_equal; lia.
Qed.

Definition hdr (be : bool) (magic : bytes) (n : N) (kind : bytes) : bytes := magic ++ size32 be n ++ kind.
Lemma iff_head : forall be magic kind cs junk, iff_file be magic kind cs ++ junk = hdr be magic (4 + lenN (body be cs)) kind ++ body be cs ++ junk.
Proof. intros. unfold iff_file, hdr. now rewrite <- !app_assoc. Qed.
Lemma head_len4 : forall be magic n kind, lenN magic = 4 -> lenN kind = 4 -> lenN (hdr be magic n kind) = 12.
Proof. intros. unfold hdr. rewrite !lenN_app, size32_len. lia. Qed.
Lemma iff_len : forall be magic kind cs, lenN magic = 4 -> lenN kind = 4 -> lenN (iff_file be magic kind cs) = 12 + lenN (body be cs).
Proof. intros. rewrite <- (app_nil_r (iff_file _ _ _ _)), iff_head, !lenN_app, head_len4, lenN_nil by auto. lia. Qed.
Lemma body_count_be : forall be cs, Forall chunk_ok cs -> (length cs <= length (body be cs))%nat.
Proof.
  induction 1 as [|c cs O F IH]; [auto|]. rewrite body_cons, app_length. cbn [length]. pose proof (chunk_bytes_len be c O). unfold lenN in *. lia.
Qed.
(** What is found. *)
Definition found_at (be : bool) (cs : list (bytes * bytes)) (f : option (N * N)) : Prop :=
  match f with
  | None => Forall (fun c => id3_id (fst c) = false) cs
  | Some (x, y) => exists a c b, cs = a ++ c :: b /\ Forall (fun c => id3_id (fst c) = false) a /\ id3_id (fst c) = true /\
      x = 12 + lenN (body be a) /\ y = x + lenN (chunk_bytes be c)
  end.
Lemma context_ok : forall be m magic kind cs junk, id_ok magic -> lenN kind = 4 -> Forall chunk_ok cs -> 4 + lenN (body be cs) < 2 ^ 32 ->
  forall f, found_at be cs f -> id3_context be m (iff_file be magic kind cs ++ junk) = Ok (lenN (iff_file be magic kind cs), f).
Proof.
  intros be m magic kind cs junk IM KL OK L f FA. assert (ML : lenN magic = 4) by apply IM. unfold id3_context.
  set (data := iff_file be magic kind cs ++ junk). assert (DL : lenN data = 12 + lenN (body be cs) + lenN junk) by (unfold data; rewrite lenN_app, iff_len by auto; lia).
  unfold next. unfold chunks_new at 1. rewrite skip_done. cbn [bind]. destruct (N.ltb_spec (lenN data) 8); [lia|].
  unfold data at 1. rewrite iff_head. unfold hdr. rewrite <- !app_assoc. rewrite read_exact_app by auto. cbn [iord bind].
  apply id_ok_valid in IM as [_ IV]. rewrite IV. cbn [negb]. rewrite read_exact_app by apply size32_len. cbn [iord bind]. rewrite dec_size by auto.
  destruct (N.ltb_spec (lenN data) (4 + lenN (body be cs))); [lia|]. cbn [bind k_size].
  destruct (N.ltb_spec (lenN data) (4 + lenN (body be cs) + 8)); [lia|]. rewrite iff_len by auto.
  replace (dropN 12 data) with (body be cs ++ junk) by (unfold data; rewrite iff_head; symmetry; apply dropN_app; now apply head_len4).
  replace (4 + lenN (body be cs) + 8 - 8) with (4 + lenN (body be cs)) by lia. replace (4 + lenN (body be cs) + 8) with (12 + lenN (body be cs)) by lia.
  assert (FU : (length cs < S (length data))%nat). { pose proof (body_count_be be cs OK). unfold data. rewrite iff_head, !app_length. lia. }
  destruct f as [[x y]|].
  - destruct FA as (a & c & b & -> & NA & IC & X & Y). apply Forall_app in OK as [OA OB]. inversion OB as [|? ? OC OB']; subst.
    rewrite body_app, body_cons, <- !app_assoc in *. rewrite !lenN_app in *.
    rewrite (find_id3 a _ be m _ (4 + (lenN (body be a) + (lenN (chunk_bytes be c) + lenN (body be b)))) (4 + (lenN (body be a) + (lenN (chunk_bytes be c) + lenN (body be b)))) None (chunk_bytes be c ++ body be b ++ junk) 12 (Some c) 0 OA NA); try lia.
    + cbn [bind]. do 4 f_equal; lia.
    + unfold chunks_new. apply skip_done.
    + rewrite app_length in FU. lia.
    + exists (body be b ++ junk). refine (conj eq_refl (conj OC (conj IC _))). lia.
  - rewrite (find_id3 cs _ be m _ (4 + lenN (body be cs)) (4 + lenN (body be cs)) None junk 12 None 4 OK FA); try lia; auto. 
Qed.

Definition id3_name (upper : bool) : bytes := if upper then $"ID3 " else $"id3 ".
Lemma id3_chunk_bytes : forall be upper tag, lenN tag < 2 ^ 32 -> id3v2_chunk be upper tag = chunk_bytes be (id3_name upper, tag).
Proof. intros. unfold id3v2_chunk, chunk_bytes, id3_name, enc32, size32, pad_of. cbn [fst snd]. now rewrite N.mod_small by auto. Qed.
Lemma id3_name_ok : forall upper, id_ok (id3_name upper).
Proof. intros []; apply id_ok_valid; split; reflexivity. Qed.
Lemma tag_size_spec : forall be upper tag, tag <> [] -> lenN tag < 2 ^ 32 ->
  (match tag with [] => 0 | _ => lenN tag + 8 end) + (if N.even (lenN tag) then 0 else 1) = lenN (chunk_bytes be (id3_name upper, tag)).
Proof.
  intros be upper tag NE L. rewrite chunk_bytes_len by (split; [apply id3_name_ok|exact L]). cbn [snd]. destruct tag; [congruence|]. unfold pad_len. lia.
Qed.
Lemma size_field_ok : forall be n, n + 8 < 2 ^ 32 -> size_field be (n + 8) = Ok (size32 be n).
Proof.
  intros. unfold size_field, as_u32. rewrite N.mod_small by auto. destruct (N.ltb_spec (n + 8) 8); [lia|]. replace (n + 8 - 8) with n by lia. reflexivity.
Qed.
Lemma patch_head : forall be magic n x kind b, lenN magic = 4 -> write_at 4 (size32 be n) (hdr be magic x kind ++ b) = hdr be magic n kind ++ b.
Proof.
  intros be magic n x kind b ML. unfold write_at, hdr. rewrite <- !app_assoc. rewrite takeN_app by auto. rewrite size32_len.
  replace (4 - lenN (magic ++ size32 be x ++ kind ++ b)) with 0. 2:{ rewrite lenN_app. lia. }
  cbn [N.to_nat repeat app]. rewrite dropN_app_ge by lia. replace (4 + 4 - lenN magic) with 4 by lia.
  rewrite dropN_app by apply size32_len. reflexivity.
Qed.
Lemma write_mid : forall a x b new, lenN x = lenN new -> write_at (lenN a) new (a ++ x ++ b) = a ++ new ++ b.
Proof.
  intros a x b new L. unfold write_at. rewrite takeN_app by reflexivity. rewrite lenN_app. replace (lenN a - (lenN a + lenN (x ++ b))) with 0 by lia. cbn [N.to_nat repeat app].
  rewrite dropN_app_ge by lia. replace (lenN a + lenN new - lenN a) with (lenN x) by lia. now rewrite dropN_app by reflexivity.
Qed.
(** A write over the tail of the file that covers all of it. *)
Lemma write_tail : forall a x new, lenN x <= lenN new -> write_at (lenN a) new (a ++ x) = a ++ new.
Proof.
  intros a x new L. unfold write_at. rewrite takeN_app by reflexivity. rewrite lenN_app. replace (lenN a - (lenN a + lenN x)) with 0 by lia. cbn [N.to_nat repeat app].
  rewrite dropN_all by (rewrite lenN_app; lia). now rewrite app_nil_r.
Qed.
Lemma set_len_app : forall a b, set_len (lenN a) (a ++ b) = a.
Proof. intros. unfold set_len. rewrite takeN_app by reflexivity. rewrite lenN_app. replace (lenN a - (lenN a + lenN b)) with 0 by lia. apply app_nil_r. Qed.

Lemma sub64_ok : forall a b, b <= a -> sub64 a b = Ok (a - b).
Proof. intros. unfold sub64. destruct (N.ltb_spec a b); [lia|reflexivity]. Qed.

Section SAVE.
Context (be upper padding : bool) (m : pmode) (magic kind tag : bytes).
Context (IM : id_ok magic) (KL : lenN kind = 4) (NE : tag <> []) (TL : lenN tag < 2 ^ 32).
Let new := (id3_name upper, tag).
Let ML : lenN magic = 4. Proof. apply IM. Qed.

Lemma save_append : forall cs junk, Forall chunk_ok cs -> Forall (fun c => id3_id (fst c) = false) cs -> 12 + lenN (body be (cs ++ [new])) < 2 ^ 32 ->
  exists ops, write_id3_chunk be m upper padding (iff_file be magic kind cs ++ junk) tag = Ok ops /\
    apply_log (iff_file be magic kind cs ++ junk) ops = iff_file be magic kind (cs ++ [new]) ++ junk.
Proof.
  intros cs junk OK NI L. change (2 ^ 32) with 4294967296 in *. rewrite body_app, lenN_app in L. cbn [body flat_map] in L. rewrite app_nil_r in L. fold (body be cs) in L.
  unfold write_id3_chunk. rewrite (tag_size_spec be upper) by auto. fold new. rewrite (context_ok be m magic kind cs junk IM KL OK) with (f := None); [|change (2 ^ 32) with 4294967296; lia|exact NI].
  cbn [bind]. rewrite id3_chunk_bytes by auto. fold new.
  assert (SP := splice_at iff_error (iff_file be magic kind cs) [] junk (chunk_bytes be new)). rewrite lenN_nil, N.add_0_r in SP. cbn [app] in SP.
  assert (MT : match tag with [] => [] | _ :: _ => chunk_bytes be new end = chunk_bytes be new) by (destruct tag; congruence). rewrite MT, SP. cbn [bind].
  rewrite iff_len by auto. replace (12 + lenN (body be cs) + lenN (chunk_bytes be new)) with (4 + lenN (body be cs) + lenN (chunk_bytes be new) + 8) by lia.
  rewrite size_field_ok by (change (2 ^ 32) with 4294967296; lia). cbn [bind]. destruct tag as [|x tg]; [congruence|]. eexists. split. reflexivity.
  rewrite rewrite_all_spec, !iff_head, patch_head by auto. rewrite body_app, lenN_app. cbn [body flat_map]. rewrite app_nil_r. fold (body be cs).
  rewrite N.add_assoc. now rewrite <- !app_assoc.
Qed.

Lemma save_whole : forall a c b junk, Forall chunk_ok (a ++ c :: b) -> Forall (fun c => id3_id (fst c) = false) a -> id3_id (fst c) = true ->
  b <> [] \/ junk <> [] -> (negb be && padding = false \/ lenN (chunk_bytes be c) < 8 + lenN (chunk_bytes be new)) ->
  12 + lenN (body be (a ++ c :: b)) < 2 ^ 32 -> 12 + lenN (body be (a ++ b ++ [new])) < 2 ^ 32 ->
  exists ops, write_id3_chunk be m upper padding (iff_file be magic kind (a ++ c :: b) ++ junk) tag = Ok ops /\
    apply_log (iff_file be magic kind (a ++ c :: b) ++ junk) ops = iff_file be magic kind (a ++ b ++ [new]) ++ junk.
Proof.
  intros a c b junk OK NI IC MID PAD L1 L. change (2 ^ 32) with 4294967296 in *.
  assert (BN : body be [new] = chunk_bytes be new) by (cbn [body flat_map]; apply app_nil_r).
  assert (OC : chunk_ok c) by (apply Forall_app in OK as [_ OK]; now inversion OK). assert (OB : Forall chunk_ok b) by (apply Forall_app in OK as [_ OK]; now inversion OK).
  assert (CL := chunk_bytes_len be c OC).
  assert (MID2 : 0 < lenN (body be b) + lenN junk).
  { destruct MID as [H|H]. destruct b as [|c2 b2]; [congruence|]. inversion OB; subst. rewrite body_cons, lenN_app, chunk_bytes_len by auto. lia.
    destruct junk; [congruence|]. rewrite lenN_cons. lia. }
  set (cs := a ++ c :: b) in *. assert (BL : body be cs = body be a ++ chunk_bytes be c ++ body be b) by (unfold cs; now rewrite body_app, body_cons).
  assert (BLL : lenN (body be cs) = lenN (body be a) + (lenN (chunk_bytes be c) + lenN (body be b))) by (now rewrite BL, !lenN_app).
  rewrite !body_app, !lenN_app, BN in L.
  unfold write_id3_chunk. rewrite (tag_size_spec be upper) by auto. fold new. set (x := 12 + lenN (body be a)).
  rewrite (context_ok be m magic kind cs junk IM KL OK) with (f := Some (x, x + lenN (chunk_bytes be c))); [|change (2 ^ 32) with 4294967296; lia|].
  2:{ exists a, c, b. repeat split; auto. }
  cbn [bind]. rewrite id3_chunk_bytes by auto. fold new.
  assert (MT : match tag with [] => [] | _ :: _ => chunk_bytes be new end = chunk_bytes be new) by (destruct tag; congruence). rewrite MT.
  rewrite lenN_app, iff_len by auto.
  assert (NB : ((x + lenN (chunk_bytes be c) =? 12 + lenN (body be cs)) && (12 + lenN (body be cs) + lenN junk =? 12 + lenN (body be cs))) = false).
  { apply andb_false_iff. unfold x. destruct (N.eq_dec (lenN junk) 0); [left|right]; apply N.eqb_neq; lia. }
  rewrite NB.
  assert (SP := splice_at iff_error (iff_file be magic kind cs) [] junk (chunk_bytes be new)). rewrite lenN_nil, N.add_0_r, iff_len in SP by auto. cbn [app] in SP.
  rewrite SP. cbn [bind].
  replace (x + lenN (chunk_bytes be c) - x) with (lenN (chunk_bytes be c)) by lia. rewrite (sub64_ok (12 + lenN (body be cs)) (lenN (chunk_bytes be c))) by lia. cbn [bind].
  set (h := hdr be magic (4 + lenN (body be cs)) kind). assert (HL : lenN h = 12) by now apply head_len4.
  assert (SP2 := splice_at iff_error (h ++ body be a) (chunk_bytes be c) (body be b ++ chunk_bytes be new ++ junk) []).
  rewrite lenN_app, HL in SP2. fold x in SP2.
  replace (iff_file be magic kind cs ++ chunk_bytes be new ++ junk) with ((h ++ body be a) ++ chunk_bytes be c ++ body be b ++ chunk_bytes be new ++ junk).
  2:{ rewrite iff_head. fold h. rewrite BL. now rewrite <- !app_assoc. }
  rewrite SP2. cbn [bind app].
  replace (12 + lenN (body be cs) - lenN (chunk_bytes be c) + lenN (chunk_bytes be new)) with (4 + (lenN (body be a) + (lenN (body be b) + lenN (chunk_bytes be new))) + 8) by lia.
  rewrite size_field_ok by (change (2 ^ 32) with 4294967296; lia). cbn [bind].
  assert (RES : apply_log (iff_file be magic kind cs ++ junk) (rewrite_all (write_at 4 (size32 be (4 + (lenN (body be a) + (lenN (body be b) + lenN (chunk_bytes be new))))) ((h ++ body be a) ++ body be b ++ chunk_bytes be new ++ junk))) =
    iff_file be magic kind (a ++ b ++ [new]) ++ junk).
  { rewrite rewrite_all_spec, iff_head. unfold h. rewrite <- app_assoc, patch_head by auto. rewrite !body_app, !lenN_app, BN. now rewrite <- !app_assoc. }
  destruct (negb be && padding) eqn:NP.
  - destruct PAD as [|PAD]; [congruence|]. destruct tag as [|tx tg] eqn:TG; [congruence|]. rewrite <- TG in *. unfold sub64. destruct (N.ltb_spec (lenN (chunk_bytes be c)) 8); [lia|]. cbn [bind].
    destruct (N.leb_spec (lenN (chunk_bytes be new)) (lenN (chunk_bytes be c) - 8)); [lia|]. eexists. split; [reflexivity|exact RES].
  - eexists. split; [reflexivity|exact RES].
Qed.

(** The chunk is the last thing in the file. *)
Lemma save_last : forall a c, Forall chunk_ok (a ++ [c]) -> Forall (fun c => id3_id (fst c) = false) a -> id3_id (fst c) = true ->
  12 + lenN (body be (a ++ [c])) < 2 ^ 32 -> lenN (chunk_bytes be new) <= lenN (chunk_bytes be c) ->
  exists ops, write_id3_chunk be m upper padding (iff_file be magic kind (a ++ [c])) tag = Ok ops /\
    apply_log (iff_file be magic kind (a ++ [c])) ops = iff_file be magic kind (a ++ [new]).
Proof.
  intros a c OK NI IC L1 FIT. change (2 ^ 32) with 4294967296 in *.
  assert (BN : forall c, body be [c] = chunk_bytes be c) by (intro; cbn [body flat_map]; apply app_nil_r).
  set (cs := a ++ [c]) in *. assert (BL : body be cs = body be a ++ chunk_bytes be c) by (unfold cs; now rewrite body_app, BN).
  assert (BLL : lenN (body be cs) = lenN (body be a) + lenN (chunk_bytes be c)) by (now rewrite BL, !lenN_app).
  unfold write_id3_chunk. rewrite (tag_size_spec be upper) by auto. fold new. set (x := 12 + lenN (body be a)).
  assert (CX := context_ok be m magic kind cs [] IM KL OK ltac:(change (2 ^ 32) with 4294967296; lia) (Some (x, x + lenN (chunk_bytes be c)))). rewrite app_nil_r in CX. rewrite CX. clear CX.
  2:{ exists a, c, []. repeat split; auto. }
  cbn [bind]. rewrite id3_chunk_bytes by auto. fold new. rewrite iff_len by auto.
  replace (x + lenN (chunk_bytes be c) - x) with (lenN (chunk_bytes be c)) by lia.
  replace (x + lenN (chunk_bytes be c) =? 12 + lenN (body be cs)) with true by (symmetry; apply N.eqb_eq; unfold x; lia). rewrite N.eqb_refl. cbn [andb].
  set (h := hdr be magic (4 + lenN (body be cs)) kind). assert (HL : lenN h = 12) by now apply head_len4.
  assert (FE : iff_file be magic kind cs = (h ++ body be a) ++ chunk_bytes be c). { rewrite <- (app_nil_r (iff_file _ _ _ _)), iff_head. fold h. now rewrite BL, app_nil_r, <- app_assoc. }
  assert (XL : x = lenN (h ++ body be a)) by (rewrite lenN_app; unfold x; lia).
  assert (RE : iff_file be magic kind (a ++ [new]) = hdr be magic (4 + (lenN (body be a) + lenN (chunk_bytes be new))) kind ++ body be a ++ chunk_bytes be new).
  { rewrite <- (app_nil_r (iff_file _ _ _ _)), iff_head, body_app, BN, lenN_app, app_nil_r. reflexivity. }
  destruct tag as [|tx tg] eqn:TG; [congruence|]. rewrite <- TG in *.
  destruct (N.ltb_spec (lenN (chunk_bytes be new)) (lenN (chunk_bytes be c))) as [LT|GE].
  - unfold sub64. destruct (N.ltb_spec (12 + lenN (body be cs)) (lenN (chunk_bytes be c) - lenN (chunk_bytes be new))); [lia|]. cbn [bind].
    replace (12 + lenN (body be cs) - (lenN (chunk_bytes be c) - lenN (chunk_bytes be new))) with (4 + (lenN (body be a) + lenN (chunk_bytes be new)) + 8) by lia.
    rewrite size_field_ok by (change (2 ^ 32) with 4294967296; lia). cbn [bind app]. eexists. split. reflexivity.
    unfold apply_log. cbn [fold_left apply_op]. rewrite XL.
    assert (FE' : iff_file be magic kind cs = (h ++ body be a) ++ takeN (lenN (chunk_bytes be new)) (chunk_bytes be c) ++ dropN (lenN (chunk_bytes be new)) (chunk_bytes be c)) by (now rewrite takeN_dropN).
    rewrite FE'.
    rewrite write_mid by (rewrite lenN_takeN; lia). rewrite (app_assoc (h ++ body be a)).
    replace (lenN (h ++ body be a) + lenN (chunk_bytes be c) - (lenN (chunk_bytes be c) - lenN (chunk_bytes be new))) with (lenN ((h ++ body be a) ++ chunk_bytes be new)) by (rewrite (lenN_app _ (h ++ body be a)); lia).
    rewrite set_len_app. unfold h. rewrite <- app_assoc, patch_head by auto. now rewrite RE.
  - assert (EQ : lenN (chunk_bytes be new) = lenN (chunk_bytes be c)) by lia. unfold sub64. destruct (N.ltb_spec (12 + lenN (body be cs)) (lenN (chunk_bytes be new) - lenN (chunk_bytes be c))); [lia|]. cbn [bind].
    replace (12 + lenN (body be cs) - (lenN (chunk_bytes be new) - lenN (chunk_bytes be c))) with (4 + (lenN (body be a) + lenN (chunk_bytes be new)) + 8) by lia.
    rewrite size_field_ok by (change (2 ^ 32) with 4294967296; lia). cbn [bind app]. eexists. split. reflexivity.
    unfold apply_log. cbn [fold_left apply_op]. rewrite FE, XL, write_tail by lia. unfold h. rewrite <- app_assoc, patch_head by auto. now rewrite RE.
Qed.

(** Growth: the size field loses what it should gain. *)
Lemma save_grow : forall a c, Forall chunk_ok (a ++ [c]) -> Forall (fun c => id3_id (fst c) = false) a -> id3_id (fst c) = true ->
  12 + lenN (body be (a ++ [c])) < 2 ^ 32 -> lenN (chunk_bytes be c) < lenN (chunk_bytes be new) ->
  let growth := lenN (chunk_bytes be new) - lenN (chunk_bytes be c) in
  if growth <=? 4 + lenN (body be (a ++ [c])) then
    exists ops, write_id3_chunk be m upper padding (iff_file be magic kind (a ++ [c])) tag = Ok ops /\
      apply_log (iff_file be magic kind (a ++ [c])) ops = hdr be magic (4 + lenN (body be (a ++ [c])) - growth) kind ++ body be (a ++ [new])
  else write_id3_chunk be m upper padding (iff_file be magic kind (a ++ [c])) tag = Panic.
Proof.
  intros a c OK NI IC L1 FIT growth. change (2 ^ 32) with 4294967296 in *.
  assert (BN : forall c, body be [c] = chunk_bytes be c) by (intro; cbn [body flat_map]; apply app_nil_r).
  set (cs := a ++ [c]) in *. assert (BL : body be cs = body be a ++ chunk_bytes be c) by (unfold cs; now rewrite body_app, BN).
  assert (BLL : lenN (body be cs) = lenN (body be a) + lenN (chunk_bytes be c)) by (now rewrite BL, !lenN_app).
  unfold write_id3_chunk. rewrite (tag_size_spec be upper) by auto. fold new. set (x := 12 + lenN (body be a)).
  assert (CX := context_ok be m magic kind cs [] IM KL OK ltac:(change (2 ^ 32) with 4294967296; lia) (Some (x, x + lenN (chunk_bytes be c)))). rewrite app_nil_r in CX. rewrite CX. clear CX.
  2:{ exists a, c, []. repeat split; auto. }
  cbn [bind]. rewrite id3_chunk_bytes by auto. fold new. rewrite iff_len by auto.
  replace (x + lenN (chunk_bytes be c) - x) with (lenN (chunk_bytes be c)) by lia.
  replace (x + lenN (chunk_bytes be c) =? 12 + lenN (body be cs)) with true by (symmetry; apply N.eqb_eq; unfold x; lia). rewrite N.eqb_refl. cbn [andb].
  set (h := hdr be magic (4 + lenN (body be cs)) kind). assert (HL : lenN h = 12) by now apply head_len4.
  assert (FE : iff_file be magic kind cs = (h ++ body be a) ++ chunk_bytes be c). { rewrite <- (app_nil_r (iff_file _ _ _ _)), iff_head. fold h. now rewrite BL, app_nil_r, <- app_assoc. }
  assert (XL : x = lenN (h ++ body be a)) by (rewrite lenN_app; unfold x; lia).
  destruct tag as [|tx tg] eqn:TG; [congruence|]. rewrite <- TG in *.
  destruct (N.ltb_spec (lenN (chunk_bytes be new)) (lenN (chunk_bytes be c))) as [LT|GE]; [lia|]. fold growth.
  destruct (N.leb_spec growth (4 + lenN (body be cs))) as [G|G].
  - unfold sub64. destruct (N.ltb_spec (12 + lenN (body be cs)) growth); [lia|]. cbn [bind].
    replace (12 + lenN (body be cs) - growth) with (4 + lenN (body be cs) - growth + 8) by lia.
    rewrite size_field_ok by (change (2 ^ 32) with 4294967296; lia). cbn [bind app]. eexists. split. reflexivity.
    unfold apply_log. cbn [fold_left apply_op]. rewrite FE, XL, write_tail by lia. unfold h. rewrite <- app_assoc, patch_head by auto. now rewrite body_app, BN.
  - unfold sub64. destruct (N.ltb_spec (12 + lenN (body be cs)) growth). reflexivity. cbn [bind].
    unfold size_field, as_u32. rewrite N.mod_small by (change (2 ^ 32) with 4294967296; lia). destruct (N.ltb_spec (12 + lenN (body be cs) - growth) 8); [reflexivity|lia].
Qed.
End SAVE.

(** ** The JUNK branch (WAV) *)
Lemma save_junk : forall m upper a c b junk tag, tag <> [] -> lenN tag < 2 ^ 32 -> Forall chunk_ok (a ++ c :: b) -> Forall (fun c => id3_id (fst c) = false) a -> id3_id (fst c) = true ->
  b <> [] \/ junk <> [] -> 12 + lenN (body false (a ++ c :: b)) < 2 ^ 32 ->
  let new := (id3_name upper, tag) in 8 + lenN (chunk_bytes false new) <= lenN (chunk_bytes false c) ->
  let left := lenN (chunk_bytes false c) - lenN (chunk_bytes false new) - 8 in
  exists ops filler, write_id3_chunk false m upper true (riff_file (a ++ c :: b) ++ junk) tag = Ok ops /\ lenN filler = left /\
    apply_log (riff_file (a ++ c :: b) ++ junk) ops =
      hdr false ($"RIFF") (4 + lenN (body false (a ++ c :: b))) ($"WAVE") ++ body false (a ++ [new]) ++ ($"JUNK" ++ size32 false (left + 8) ++ filler) ++ body false b ++ junk.
Proof.
  intros m upper a c b junk tag NE TL OK NI IC MID L1 new FIT left. change (2 ^ 32) with 4294967296 in *.
  assert (BN : body false [new] = chunk_bytes false new) by (cbn [body flat_map]; apply app_nil_r).
  assert (OC : chunk_ok c) by (apply Forall_app in OK as [_ OK]; now inversion OK). assert (OB : Forall chunk_ok b) by (apply Forall_app in OK as [_ OK]; now inversion OK).
  assert (CL := chunk_bytes_len false c OC).
  assert (MID2 : 0 < lenN (body false b) + lenN junk).
  { destruct MID as [H|H]. destruct b as [|c2 b2]; [congruence|]. inversion OB; subst. rewrite body_cons, lenN_app, chunk_bytes_len by auto. lia.
    destruct junk; [congruence|]. rewrite lenN_cons. lia. }
  set (cs := a ++ c :: b) in *. assert (BL : body false cs = body false a ++ chunk_bytes false c ++ body false b) by (unfold cs; now rewrite body_app, body_cons).
  assert (BLL : lenN (body false cs) = lenN (body false a) + (lenN (chunk_bytes false c) + lenN (body false b))) by (now rewrite BL, !lenN_app).
  assert (IM : id_ok ($"RIFF")) by (apply id_ok_valid; split; reflexivity).
  unfold write_id3_chunk. rewrite (tag_size_spec false upper) by auto. fold new. set (x := 12 + lenN (body false a)). unfold riff_file.
  rewrite (context_ok false m ($"RIFF") ($"WAVE") cs junk IM eq_refl OK) with (f := Some (x, x + lenN (chunk_bytes false c))); [|change (2 ^ 32) with 4294967296; lia|].
  2:{ exists a, c, b. repeat split; auto. }
  cbn [bind]. rewrite id3_chunk_bytes by auto. fold new. rewrite lenN_app, iff_len by auto.
  assert (NB : ((x + lenN (chunk_bytes false c) =? 12 + lenN (body false cs)) && (12 + lenN (body false cs) + lenN junk =? 12 + lenN (body false cs))) = false).
  { apply andb_false_iff. unfold x. destruct (N.eq_dec (lenN junk) 0); [left|right]; apply N.eqb_neq; lia. }
  rewrite NB. cbn [negb andb]. replace (x + lenN (chunk_bytes false c) - x) with (lenN (chunk_bytes false c)) by lia.
  destruct tag as [|tx tg] eqn:TG; [congruence|]. rewrite <- TG in *.
  unfold sub64 at 1. destruct (N.ltb_spec (lenN (chunk_bytes false c)) 8); [lia|]. cbn [bind].
  destruct (N.leb_spec (lenN (chunk_bytes false new)) (lenN (chunk_bytes false c) - 8)); [|lia].
  set (h := hdr false ($"RIFF") (4 + lenN (body false cs)) ($"WAVE")). assert (HL : lenN h = 12) by now apply head_len4.
  assert (FE : iff_file false ($"RIFF") ($"WAVE") cs ++ junk = (h ++ body false a) ++ chunk_bytes false c ++ body false b ++ junk). { rewrite iff_head. fold h. now rewrite BL, <- !app_assoc. }
  set (n1 := lenN (chunk_bytes false new)) in *. set (ch := chunk_bytes false c) in *.
  exists [OpWrite x (chunk_bytes false new); OpWrite (x + n1) ($"JUNK" ++ enc32 false (as_u32 (lenN ch - n1)))], (dropN (n1 + 8) ch).
  split. reflexivity. split. { rewrite lenN_dropN. unfold left. lia. }
  unfold apply_log. cbn [fold_left apply_op].
  assert (XL : x = lenN (h ++ body false a)) by (rewrite lenN_app; unfold x; lia). rewrite XL.
  assert (CE : ch = takeN n1 ch ++ takeN 8 (dropN n1 ch) ++ dropN (n1 + 8) ch). { now rewrite <- dropN_dropN, !takeN_dropN. }
  assert (FE2 : iff_file false ($"RIFF") ($"WAVE") cs ++ junk = (h ++ body false a) ++ takeN n1 ch ++ takeN 8 (dropN n1 ch) ++ dropN (n1 + 8) ch ++ body false b ++ junk).
  { rewrite FE. rewrite CE at 1. now rewrite <- !app_assoc. }
  rewrite FE2. rewrite write_mid by (rewrite lenN_takeN; fold n1; lia).
  rewrite (app_assoc (h ++ body false a)). replace (lenN (h ++ body false a) + n1) with (lenN ((h ++ body false a) ++ chunk_bytes false new)) by (rewrite (lenN_app _ (h ++ body false a)); fold n1; lia).
  rewrite write_mid. 2:{ rewrite lenN_takeN, lenN_dropN, lenN_app, enc_size, size32_len. change (lenN ($"JUNK")) with 4. lia. }
  rewrite body_app, BN, enc_size. unfold as_u32. rewrite N.mod_small by (change (2 ^ 32) with 4294967296; lia). replace (left + 8) with (lenN ch - n1) by (unfold left; lia). now rewrite <- !app_assoc.
Qed.

(** ** No tag: removal *)
Lemma remove_none : forall be m upper padding magic kind cs junk, id_ok magic -> lenN kind = 4 -> Forall chunk_ok cs -> 4 + lenN (body be cs) < 2 ^ 32 ->
  Forall (fun c => id3_id (fst c) = false) cs -> write_id3_chunk be m upper padding (iff_file be magic kind cs ++ junk) [] = Ok [].
Proof.
  intros. unfold write_id3_chunk. rewrite (context_ok be m magic kind cs junk) with (f := None) by auto. reflexivity.
Qed.
Lemma remove_last : forall be m upper padding magic kind a c, id_ok magic -> lenN kind = 4 -> Forall chunk_ok (a ++ [c]) -> 12 + lenN (body be (a ++ [c])) < 2 ^ 32 ->
  Forall (fun c => id3_id (fst c) = false) a -> id3_id (fst c) = true ->
  exists ops, write_id3_chunk be m upper padding (iff_file be magic kind (a ++ [c])) [] = Ok ops /\ apply_log (iff_file be magic kind (a ++ [c])) ops = iff_file be magic kind a.
Proof.
  intros be m upper padding magic kind a c IM KL OK L1 NI IC. change (2 ^ 32) with 4294967296 in *. assert (ML : lenN magic = 4) by apply IM.
  assert (BN : forall c, body be [c] = chunk_bytes be c) by (intro; cbn [body flat_map]; apply app_nil_r).
  set (cs := a ++ [c]) in *. assert (BL : body be cs = body be a ++ chunk_bytes be c) by (unfold cs; now rewrite body_app, BN).
  assert (BLL : lenN (body be cs) = lenN (body be a) + lenN (chunk_bytes be c)) by (now rewrite BL, !lenN_app).
  unfold write_id3_chunk. set (x := 12 + lenN (body be a)).
  assert (CX := context_ok be m magic kind cs [] IM KL OK ltac:(change (2 ^ 32) with 4294967296; lia) (Some (x, x + lenN (chunk_bytes be c)))). rewrite app_nil_r in CX. rewrite CX. clear CX.
  2:{ exists a, c, []. repeat split; auto. }
  cbn [bind]. rewrite iff_len by auto.
  replace (x + lenN (chunk_bytes be c) - x) with (lenN (chunk_bytes be c)) by lia.
  replace (x + lenN (chunk_bytes be c) =? 12 + lenN (body be cs)) with true by (symmetry; apply N.eqb_eq; unfold x; lia). rewrite N.eqb_refl. cbn [andb].
  set (h := hdr be magic (4 + lenN (body be cs)) kind). assert (HL : lenN h = 12) by now apply head_len4.
  assert (FE : iff_file be magic kind cs = (h ++ body be a) ++ chunk_bytes be c). { rewrite <- (app_nil_r (iff_file _ _ _ _)), iff_head. fold h. now rewrite BL, app_nil_r, <- app_assoc. }
  assert (XL : x = lenN (h ++ body be a)) by (rewrite lenN_app; unfold x; lia).
  unfold sub64. destruct (N.ltb_spec (12 + lenN (body be cs)) (lenN (chunk_bytes be c))); [lia|]. cbn [bind].
  replace (12 + lenN (body be cs) - lenN (chunk_bytes be c)) with (4 + lenN (body be a) + 8) by lia.
  rewrite size_field_ok by (change (2 ^ 32) with 4294967296; lia). cbn [bind app]. eexists. split. reflexivity.
  unfold apply_log. cbn [fold_left apply_op]. rewrite FE, XL, set_len_app. unfold h. rewrite patch_head by auto. rewrite <- (app_nil_r (iff_file be magic kind a)), iff_head. now rewrite app_nil_r.
Qed.
Lemma remove_mid : forall be m upper padding magic kind a c b junk, id_ok magic -> lenN kind = 4 -> Forall chunk_ok (a ++ c :: b) -> 12 + lenN (body be (a ++ c :: b)) < 2 ^ 32 ->
  Forall (fun c => id3_id (fst c) = false) a -> id3_id (fst c) = true -> b <> [] \/ junk <> [] ->
  exists ops, write_id3_chunk be m upper padding (iff_file be magic kind (a ++ c :: b) ++ junk) [] = Ok ops /\
    apply_log (iff_file be magic kind (a ++ c :: b) ++ junk) ops =
      iff_file be magic kind (if negb be && padding then a ++ ($"JUNK", snd c) :: b else a ++ b) ++ junk.
Proof.
  intros be m upper padding magic kind a c b junk IM KL OK L1 NI IC MID. change (2 ^ 32) with 4294967296 in *. assert (ML : lenN magic = 4) by apply IM.
  assert (OC : chunk_ok c) by (apply Forall_app in OK as [_ OK]; now inversion OK). assert (OB : Forall chunk_ok b) by (apply Forall_app in OK as [_ OK]; now inversion OK).
  assert (CL := chunk_bytes_len be c OC).
  assert (MID2 : 0 < lenN (body be b) + lenN junk).
  { destruct MID as [H|H]. destruct b as [|c2 b2]; [congruence|]. inversion OB; subst. rewrite body_cons, lenN_app, chunk_bytes_len by auto. lia.
    destruct junk; [congruence|]. rewrite lenN_cons. lia. }
  set (cs := a ++ c :: b) in *. assert (BL : body be cs = body be a ++ chunk_bytes be c ++ body be b) by (unfold cs; now rewrite body_app, body_cons).
  assert (BLL : lenN (body be cs) = lenN (body be a) + (lenN (chunk_bytes be c) + lenN (body be b))) by (now rewrite BL, !lenN_app).
  unfold write_id3_chunk. set (x := 12 + lenN (body be a)). change ((match @nil N with [] => 0 | _ => lenN (@nil N) + 8 end) + (if N.even (lenN (@nil N)) then 0 else 1)) with 0.
  rewrite (context_ok be m magic kind cs junk IM KL OK) with (f := Some (x, x + lenN (chunk_bytes be c))); [|change (2 ^ 32) with 4294967296; lia|].
  2:{ exists a, c, b. repeat split; auto. }
  cbn [bind]. rewrite lenN_app, iff_len by auto.
  assert (NB : ((x + lenN (chunk_bytes be c) =? 12 + lenN (body be cs)) && (12 + lenN (body be cs) + lenN junk =? 12 + lenN (body be cs))) = false).
  { apply andb_false_iff. unfold x. destruct (N.eq_dec (lenN junk) 0); [left|right]; apply N.eqb_neq; lia. }
  rewrite NB. replace (x + lenN (chunk_bytes be c) - x) with (lenN (chunk_bytes be c)) by lia.
  set (h := hdr be magic (4 + lenN (body be cs)) kind). assert (HL : lenN h = 12) by now apply head_len4.
  assert (FE : iff_file be magic kind cs ++ junk = (h ++ body be a) ++ chunk_bytes be c ++ body be b ++ junk). { rewrite iff_head. fold h. now rewrite BL, <- !app_assoc. }
  assert (XL : x = lenN (h ++ body be a)) by (rewrite lenN_app; unfold x; lia).
  destruct (negb be && padding) eqn:NP.
  - eexists. split. reflexivity. unfold apply_log. cbn [fold_left apply_op]. rewrite FE, XL. unfold chunk_bytes at 1. rewrite <- !app_assoc. rewrite (app_assoc h).
    rewrite write_mid by (destruct OC as [(OC & _) _]; rewrite OC; reflexivity). rewrite iff_head.
    assert (JL : lenN (chunk_bytes be ($"JUNK", snd c)) = lenN (chunk_bytes be c)).
    { rewrite CL, chunk_bytes_len. reflexivity. split. apply id_ok_valid; split; reflexivity. apply OC. }
    rewrite body_app, body_cons. rewrite !lenN_app, JL, <- BLL. fold h. unfold chunk_bytes. cbn [fst snd]. now rewrite <- !app_assoc.
  - assert (SP := splice_at iff_error (iff_file be magic kind cs) [] junk []). rewrite lenN_nil, N.add_0_r, iff_len in SP by auto. cbn [app] in SP. rewrite SP. cbn [bind].
    unfold sub64. destruct (N.ltb_spec (12 + lenN (body be cs)) (lenN (chunk_bytes be c))); [lia|]. cbn [bind].
    assert (SP2 := splice_at iff_error (h ++ body be a) (chunk_bytes be c) (body be b ++ junk) []). rewrite <- XL in SP2. rewrite FE, SP2. cbn [bind app].
    change (0 + (if N.even (lenN (@nil N)) then 0 else 1)) with 0.
    replace (12 + lenN (body be cs) - lenN (chunk_bytes be c) + 0) with (4 + (lenN (body be a) + lenN (body be b)) + 8) by lia.
    rewrite size_field_ok by (change (2 ^ 32) with 4294967296; lia). cbn [bind]. eexists. split. reflexivity.
    rewrite rewrite_all_spec, iff_head. unfold h. rewrite <- app_assoc, patch_head by auto. rewrite body_app, lenN_app. now rewrite <- !app_assoc.
Qed.
