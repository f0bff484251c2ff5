(** ID3v2 chunks in WAV and AIFF files; interrupted saves. *)
From Verif Require Import BaseLemmas IffModel IffSpec IffProof IffProof2 IffProof3 IffProof4 AiffModel AiffProof.

(** ** C106: saving an ID3v2 tag in its chunk *)
Definition no_tag (c : bytes * bytes) : Prop := id3_id (fst c) = false.
Definition saves (be : bool) (m : pmode) (upper padding : bool) (data tag new : bytes) : Prop :=
  exists ops, write_id3_chunk be m upper padding data tag = Ok ops /\ apply_log data ops = new.
Section SAVE.
Context (be upper padding : bool) (m : pmode) (magic kind tag : bytes) (IM : id_ok magic) (KL : lenN kind = 4) (NE : tag <> []) (TL : lenN tag < 2 ^ 32).
(** No tag yet: the chunk is added at the end of the FORM or RIFF chunk. *)
Theorem C106_added : forall cs junk, Forall chunk_ok cs -> Forall no_tag cs -> 12 + lenN (body be (cs ++ [(id3_name upper, tag)])) < 2 ^ 32 ->
  saves be m upper padding (iff_file be magic kind cs ++ junk) tag (iff_file be magic kind (cs ++ [(id3_name upper, tag)]) ++ junk).
Proof. exact (save_append be upper padding m magic kind tag IM KL NE TL). Qed.
(** The first tag in the middle of the file is removed and the new one added at the end. *)
Theorem C106_moved : forall a c b junk, Forall chunk_ok (a ++ c :: b) -> Forall no_tag a -> id3_id (fst c) = true ->
  b <> [] \/ junk <> [] -> (negb be && padding = false \/ lenN (chunk_bytes be c) < 8 + lenN (chunk_bytes be (id3_name upper, tag))) ->
  12 + lenN (body be (a ++ c :: b)) < 2 ^ 32 -> 12 + lenN (body be (a ++ b ++ [(id3_name upper, tag)])) < 2 ^ 32 ->
  saves be m upper padding (iff_file be magic kind (a ++ c :: b) ++ junk) tag (iff_file be magic kind (a ++ b ++ [(id3_name upper, tag)]) ++ junk).
Proof. exact (save_whole be upper padding m magic kind tag IM KL NE TL). Qed.
(** The last chunk is replaced by one that is not larger. *)
Theorem C106_last : forall a c, Forall chunk_ok (a ++ [c]) -> Forall no_tag a -> id3_id (fst c) = true ->
  12 + lenN (body be (a ++ [c])) < 2 ^ 32 -> lenN (chunk_bytes be (id3_name upper, tag)) <= lenN (chunk_bytes be c) ->
  saves be m upper padding (iff_file be magic kind (a ++ [c])) tag (iff_file be magic kind (a ++ [(id3_name upper, tag)])).
Proof. exact (save_last be upper padding m magic kind tag IM KL NE TL). Qed.
(** The last chunk is replaced by a larger one: the size field of the file is made smaller by the growth, and if that is
    more than its size the operation panics. So no such save is right. *)
Theorem C106_growth_refuted : forall a c, Forall chunk_ok (a ++ [c]) -> Forall no_tag a -> id3_id (fst c) = true ->
  12 + lenN (body be (a ++ [c])) < 2 ^ 32 -> lenN (chunk_bytes be c) < lenN (chunk_bytes be (id3_name upper, tag)) -> 4 + lenN (body be (a ++ [(id3_name upper, tag)])) < 2 ^ 32 ->
  ~ saves be m upper padding (iff_file be magic kind (a ++ [c])) tag (iff_file be magic kind (a ++ [(id3_name upper, tag)])) /\
  (let growth := lenN (chunk_bytes be (id3_name upper, tag)) - lenN (chunk_bytes be c) in
   if growth <=? 4 + lenN (body be (a ++ [c])) then
     saves be m upper padding (iff_file be magic kind (a ++ [c])) tag (hdr be magic (4 + lenN (body be (a ++ [c])) - growth) kind ++ body be (a ++ [(id3_name upper, tag)]))
   else write_id3_chunk be m upper padding (iff_file be magic kind (a ++ [c])) tag = Panic).
Proof.
  intros a c O N0 I L G L2. assert (SG := save_grow be upper padding m magic kind tag IM KL NE TL a c O N0 I L G). cbv zeta in SG. split; [|exact SG].
  intros (ops & W & R). revert SG. destruct (N.leb_spec (lenN (chunk_bytes be (id3_name upper, tag)) - lenN (chunk_bytes be c)) (4 + lenN (body be (a ++ [c])))) as [LE|GT].
  - intros (ops2 & W2 & R2). rewrite W in W2. inversion W2; subst ops2. rewrite R in R2.
    assert (E := iff_head be magic kind (a ++ [(id3_name upper, tag)]) []). rewrite !app_nil_r in E. rewrite E in R2. apply app_inv_tail in R2. unfold hdr in R2. apply app_inv_head in R2. apply app_inv_tail in R2.
    apply (f_equal (dec32 be)) in R2. assert (B1 : forall x, body be (a ++ [x]) = body be a ++ chunk_bytes be x) by (intro x; unfold body; rewrite flat_map_app; cbn; now rewrite app_nil_r).
    rewrite B1, lenN_app in *. rewrite B1, lenN_app in *. rewrite !dec_size in R2 by lia. lia.
  - intros W2. congruence.
Qed.
End SAVE.
Definition form1 : list (bytes * bytes) := [($"COMM", [1; 2]); ($"SSND", [3])].
Example C106_ex : saves true Strict true true (form_file ($"AIFF") (form1 ++ [($"ID3 ", [1; 2; 3]); ($"NAME", [65; 66])])) [7; 8; 9; 10; 11]
  (form_file ($"AIFF") (form1 ++ [($"NAME", [65; 66])] ++ [($"ID3 ", [7; 8; 9; 10; 11])])).
Proof. eexists. split; vm_compute; reflexivity. Qed.
(** After such a save the file is longer than its size field announces, and the next save (which goes by that field)
    does not give a file with the data chunk and the new tag. *)
Theorem C106_growth_example : let f0 := riff_file (($"data", [1; 2]) :: [($"id3 ", [5; 5])]) in
  exists ops1, write_id3_chunk false Strict false false f0 [6; 6; 6; 6; 6; 6] = Ok ops1 /\
  le_dec (takeN 4 (dropN 4 (apply_log f0 ops1))) + 8 < lenN f0 /\
  exists ops2, write_id3_chunk false BestAttempt false false (apply_log f0 ops1) [7; 7] = Ok ops2 /\
  takeN 42 (dropN 12 (apply_log (apply_log f0 ops1) ops2)) <> body false [($"data", [1; 2]); ($"id3 ", [7; 7])].
Proof. eexists. split. vm_compute. reflexivity. split. vm_compute. reflexivity. eexists. split; vm_compute. reflexivity. discriminate. Qed.
(** A smaller tag in the middle of a WAV file with padding: the size of the JUNK chunk that fills the place is 8 too
    large, so it covers the start of the next chunk. *)
Theorem C106_junk_refuted : forall m upper a c b junk tag, tag <> [] -> lenN tag < 2 ^ 32 -> Forall chunk_ok (a ++ c :: b) -> Forall no_tag a -> id3_id (fst c) = true ->
  b <> [] \/ junk <> [] -> 12 + lenN (body false (a ++ c :: b)) < 2 ^ 32 ->
  let new := (id3_name upper, tag) in 8 + lenN (chunk_bytes false new) <= lenN (chunk_bytes false c) ->
  let left := lenN (chunk_bytes false c) - lenN (chunk_bytes false new) - 8 in
  exists filler, lenN filler = left /\
  saves false m upper true (riff_file (a ++ c :: b) ++ junk) tag
    (hdr false ($"RIFF") (4 + lenN (body false (a ++ c :: b))) ($"WAVE") ++ body false (a ++ [new]) ++ ($"JUNK" ++ size32 false (left + 8) ++ filler) ++ body false b ++ junk).
Proof.
  intros m upper a c b junk tag NE TL O N0 I B L new F left. destruct (save_junk m upper a c b junk tag NE TL O N0 I B L F) as (ops & filler & W & LF & R). exists filler. split; auto. exists ops. auto.
Qed.
(** An INFO list behind it is lost. *)
Definition empty_id3 : bytes -> res iff_error unit := fun _ => Ok tt.
Theorem C106_junk_example : let f0 := riff_file [($"data", [1; 2]); ($"id3 ", repeat 1 40); ($"LIST", $"INFO" ++ $"INAM" ++ le_enc 4 2 ++ [65; 0])] in
  (exists x, wav_read empty_id3 (fun a _ => a) Strict true false f0 = Ok x /\ wf_info x = Some [($"INAM", [65])]) /\
  exists ops, write_id3_chunk false Strict false true f0 (repeat 2 20) = Ok ops /\
  (exists y, wav_read empty_id3 (fun a _ => a) BestAttempt true false (apply_log f0 ops) = Ok y /\ wf_info y = None).
Proof. cbv zeta. split. eexists. split; vm_compute; reflexivity. eexists. split. vm_compute. reflexivity. eexists. split; vm_compute; reflexivity. Qed.

(** Removing the tag. *)
Theorem C106_nothing_to_remove : forall be m upper padding magic kind cs junk, id_ok magic -> lenN kind = 4 -> Forall chunk_ok cs -> 4 + lenN (body be cs) < 2 ^ 32 ->
  Forall no_tag cs -> saves be m upper padding (iff_file be magic kind cs ++ junk) [] (iff_file be magic kind cs ++ junk).
Proof. intros be m upper padding magic kind cs junk IM KL O L NT. exists []. split; [|reflexivity]. now apply remove_none. Qed.
Theorem C106_removed : forall be m upper padding magic kind a c b junk, id_ok magic -> lenN kind = 4 -> Forall chunk_ok (a ++ c :: b) -> 12 + lenN (body be (a ++ c :: b)) < 2 ^ 32 ->
  Forall no_tag a -> id3_id (fst c) = true ->
  saves be m upper padding (iff_file be magic kind (a ++ c :: b) ++ junk) []
    (iff_file be magic kind (if negb be && padding && negb (match b with [] => match junk with [] => true | _ => false end | _ => false end) then a ++ ($"JUNK", snd c) :: b else a ++ b) ++ junk).
Proof.
  intros be m upper padding magic kind a c b junk IM KL O L NT I.
  assert (MID : b <> [] \/ junk <> [] -> saves be m upper padding (iff_file be magic kind (a ++ c :: b) ++ junk) [] (iff_file be magic kind (if negb be && padding then a ++ ($"JUNK", snd c) :: b else a ++ b) ++ junk)).
  { intro H. exact (remove_mid be m upper padding magic kind a c b junk IM KL O L NT I H). }
  destruct b as [|x b]. destruct junk as [|y junk].
  - rewrite andb_false_r. rewrite !app_nil_r in *. exact (remove_last be m upper padding magic kind a c IM KL O L NT I).
  - cbn [negb]. rewrite andb_true_r. apply MID. right. discriminate.
  - cbn [negb]. rewrite andb_true_r. apply MID. left. discriminate.
Qed.

(** ** C109: saves that are interrupted *)
(** Saving a RIFF INFO list, an AIFF text chunk, or an ID3v2 chunk that is not the last one writes the whole file anew
    after truncating it: if the process stops in between, every byte of the file is gone. *)
Definition loses_all (data : bytes) (ops : list fop) : Prop := crash data ops [].
Lemma rewrite_loses : forall data new, loses_all data (rewrite_all new).
Proof. intros data new. exact (crash_clean data (rewrite_all new) [OpTrunc 0] [OpWrite 0 new] eq_refl). Qed.
Theorem C109_riff_refuted : forall m data t ops, write_riff_info m data t = Ok ops -> loses_all data ops.
Proof.
  intros m data t ops H. unfold write_riff_info in H. destruct (verify_wav data) as [[slen r]| |]; cbn [bind] in H; try discriminate. destruct (create_riff_info t) as [info| |]; cbn [bind] in H; try discriminate.
  destruct (U32_MAX <? slen + 8); [discriminate|]. destruct (lenN data <? slen + 8); [discriminate|]. destruct (slen <? 4); [discriminate|].
  destruct (find_info_list _ _ _) as [[[pos size]|]| |]; cbn [bind] in H; try discriminate.
  - destruct (U32_MAX <? 8 + size); [discriminate|]. destruct (slen <? 8 + size); [discriminate|]. destruct (U32_MAX <? _); [discriminate|].
    destruct (splice _ _ info data) as [v| |]; cbn [bind] in H; try discriminate. destruct (splice 4 8 _ v) as [v2| |]; cbn [bind] in H; try discriminate. inversion H; subst. apply rewrite_loses.
  - destruct (U32_MAX <? _); [discriminate|]. destruct (splice _ _ info data) as [v| |]; cbn [bind] in H; try discriminate. inversion H; subst. apply rewrite_loses.
Qed.
(** The operations leave the bytes [p] (4 bytes, at the start) and [q] (behind the size field) alone. *)
Definition keeps (p q d : bytes) : Prop := exists sz r, d = p ++ sz ++ q ++ r /\ lenN sz = 4.
Definition harmless (bound : N) (o : fop) : Prop := match o with OpWrite pos buf => bound <= pos \/ (pos = 4 /\ lenN buf <= 4) | OpTrunc n => bound <= n end.
Lemma harmless_keeps : forall p q d o, lenN p = 4 -> harmless (8 + lenN q) o -> keeps p q d -> keeps p q (apply_op d o).
Proof.
  intros p q d o LP H (sz & r & -> & LS). destruct o as [pos buf|n]; cbn [apply_op harmless] in *.
  - destruct H as [H|[-> LB]].
    + assert (LH : lenN (p ++ sz ++ q) = 8 + lenN q) by (rewrite !lenN_app; lia). replace (p ++ sz ++ q ++ r) with ((p ++ sz ++ q) ++ r) by now rewrite <- !app_assoc.
      set (h := p ++ sz ++ q) in *. exists sz, (takeN (pos - lenN h) r ++ repeat 0 (N.to_nat (pos - lenN (h ++ r))) ++ buf ++ dropN (pos + lenN buf) (h ++ r)). split; auto.
      unfold write_at. rewrite takeN_app_ge by lia. rewrite <- app_assoc. unfold h at 1. now rewrite <- !app_assoc.
    + unfold write_at. exists (buf ++ dropN (lenN buf) sz), r. split.
      * rewrite takeN_app by auto. replace (4 - lenN (p ++ sz ++ q ++ r)) with 0 by (rewrite lenN_app; lia). cbn [N.to_nat repeat app]. rewrite <- app_assoc.
        assert (D : dropN (4 + lenN buf) (p ++ sz ++ q ++ r) = dropN (lenN buf) sz ++ q ++ r).
        { rewrite <- dropN_dropN. rewrite dropN_app by auto. rewrite <- (takeN_dropN _ (lenN buf) sz) at 1. rewrite <- app_assoc. rewrite dropN_app by (rewrite lenN_takeN; lia). reflexivity. }
        now rewrite D.
      * rewrite lenN_app, lenN_dropN. lia.
  - assert (LH : lenN (p ++ sz ++ q) = 8 + lenN q) by (rewrite !lenN_app; lia). replace (p ++ sz ++ q ++ r) with ((p ++ sz ++ q) ++ r) by now rewrite <- !app_assoc.
    set (h := p ++ sz ++ q) in *. exists sz, (takeN (n - lenN h) r ++ repeat 0 (N.to_nat (n - lenN (h ++ r)))). split; auto.
    unfold set_len. rewrite takeN_app_ge by lia. rewrite <- app_assoc. unfold h at 1. now rewrite <- !app_assoc.
Qed.
Lemma harmless_torn : forall bound o o', harmless bound o -> torn o o' -> harmless bound o'.
Proof. intros bound o o' H T. destruct T. cbn [harmless] in *. destruct H as [H|[-> H]]; auto. right. split; auto. rewrite lenN_takeN. lia. Qed.
Lemma harmless_log : forall p q ops d, lenN p = 4 -> Forall (harmless (8 + lenN q)) ops -> keeps p q d -> keeps p q (apply_log d ops).
Proof. intros p q ops. induction ops as [|o ops IH]; intros d LP F K; [exact K|]. inversion F; subst. cbn [apply_log fold_left]. apply IH; auto. now apply harmless_keeps. Qed.
Lemma harmless_crash : forall p q ops d d', lenN p = 4 -> Forall (harmless (8 + lenN q)) ops -> keeps p q d -> crash d ops d' -> keeps p q d'.
Proof.
  intros p q ops d d' LP F K C. destruct C as [pre post E|pre o o' post E T]; subst ops; apply Forall_app in F as [F1 F2].
  - now apply harmless_log.
  - inversion F2; subst. apply harmless_keeps; auto. eapply harmless_torn; eauto. now apply harmless_log.
Qed.
(** Not so for an ID3v2 chunk at the end of the file: at any moment the chunks before it are intact. *)
Theorem C109_last_chunk_safe : forall be m upper padding magic kind tag a c ops d, id_ok magic -> lenN kind = 4 -> Forall chunk_ok (a ++ [c]) -> Forall no_tag a -> id3_id (fst c) = true ->
  4 + lenN (body be (a ++ [c])) < 2 ^ 32 -> write_id3_chunk be m upper padding (iff_file be magic kind (a ++ [c])) tag = Ok ops -> crash (iff_file be magic kind (a ++ [c])) ops d ->
  keeps magic (kind ++ body be a) d.
Proof.
  intros be m upper padding magic kind tag a c ops d IM KL O NT I L W C.
  assert (B1 : body be (a ++ [c]) = body be a ++ chunk_bytes be c) by (unfold body; rewrite flat_map_app; cbn; now rewrite app_nil_r).
  assert (CX := context_ok be m magic kind (a ++ [c]) [] IM KL O L (Some (12 + lenN (body be a), 12 + lenN (body be a) + lenN (chunk_bytes be c)))). rewrite app_nil_r in CX.
  specialize (CX ltac:(exists a, c, []; auto)). assert (LF := iff_len be magic kind (a ++ [c]) (proj1 IM) KL).
  eapply (harmless_crash magic (kind ++ body be a) ops); [apply IM| | |exact C].
  2:{ exists (size32 be (4 + lenN (body be (a ++ [c])))), (chunk_bytes be c). split; [|apply size32_len]. unfold iff_file. rewrite B1. now rewrite <- !app_assoc. }
  rewrite lenN_app, KL. replace (8 + (4 + lenN (body be a))) with (12 + lenN (body be a)) by lia.
  unfold write_id3_chunk in W. rewrite CX in W. cbn [bind] in W. rewrite LF, B1, lenN_app in W. rewrite <- N.add_assoc, N.eqb_refl in W. cbn [andb] in W.
  set (x := 12 + lenN (body be a)) in *. set (k := lenN (chunk_bytes be c)) in *. set (ts := _ + (if N.even (lenN tag) then 0 else 1)) in W. replace (12 + (lenN (body be a) + k)) with (x + k) in W by (unfold x; lia). replace (x + k - x) with k in W by lia.
  assert (SF : forall n f, size_field be n = Ok f -> lenN f <= 4). { intros n f H. unfold size_field in H. destruct (_ <? 8); [discriminate|]. inversion H. unfold enc32. destruct be. rewrite be_enc_len. lia. rewrite le_enc_len. lia. }
  destruct tag as [|t0 tag].
  - destruct (sub64 (x + k) k) as [len| |]; cbn [bind] in W; try discriminate. destruct (size_field be len) as [f| |] eqn:E; cbn [bind] in W; try discriminate. inversion W; subst. constructor; [cbn; lia|]. constructor; [|constructor]. cbn. right. split; auto. eauto.
  - destruct (N.ltb_spec ts k) as [LT|GE].
    + destruct (sub64 (x + k) (k - ts)) as [len| |]; cbn [bind] in W; try discriminate. destruct (size_field be len) as [f| |] eqn:E; cbn [bind] in W; try discriminate. inversion W; subst. constructor; [cbn [harmless]; left; lia|]. constructor; [cbn [harmless]; lia|]. constructor; [|constructor]. cbn. right. split; auto. eauto.
    + destruct (sub64 (x + k) (ts - k)) as [len| |]; cbn [bind] in W; try discriminate. destruct (size_field be len) as [f| |] eqn:E; cbn [bind] in W; try discriminate. inversion W; subst. constructor; [cbn [harmless]; left; lia|]. constructor; [|constructor]. cbn. right. split; auto. eauto.
Qed.
Theorem C109_id3_refuted : exists data ops, write_id3_chunk true Strict true false data [1; 2] = Ok ops /\ loses_all data ops.
Proof. exists (form_file ($"AIFF") (form1 ++ [($"ID3 ", [1; 2; 3]); ($"NAME", [65; 66])])). eexists. split. vm_compute. reflexivity. apply rewrite_loses. Qed.
Theorem C109_aiff_refuted : forall m data t ops, write_aiff_text m data t = Ok ops -> loses_all data ops \/ ops = [].
Proof.
  intros m data t ops H. unfold write_aiff_text in H.
  repeat match type of H with
  | Ok _ = Ok _ => inversion H; subst; auto; left; apply rewrite_loses
  | bind ?x _ = _ => destruct x; cbn [bind] in H; try discriminate H
  | (if ?x then _ else _) = _ => destruct x; try discriminate H
  | (match ?x with _ => _ end) = _ => destruct x; try discriminate H
  | (let '(_, _) := ?x in _) = _ => destruct x
  end.
Qed.

Print Assumptions C106_added. Print Assumptions C106_moved. Print Assumptions C106_last. Print Assumptions C106_growth_refuted. Print Assumptions C106_growth_example. Print Assumptions C106_junk_refuted.
Print Assumptions C106_junk_example. Print Assumptions C106_nothing_to_remove. Print Assumptions C106_removed.
Print Assumptions C109_riff_refuted. Print Assumptions C109_last_chunk_safe. Print Assumptions C109_id3_refuted. Print Assumptions C109_aiff_refuted.
