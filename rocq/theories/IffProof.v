(** Lemmas about [IffModel.v]. *)
From Verif Require Import BaseLemmas StrLemmas TextProof PictureProof IffModel IffSpec.

Lemma enc_size : forall be n, enc32 be n = size32 be n. Proof. reflexivity. Qed.
Lemma size32_len : forall be n, lenN (size32 be n) = 4.
Proof. intros []; intros; unfold size32; rewrite ?be_enc_len, ?le_enc_len; reflexivity. Qed.
Lemma dec_size : forall be n, n < 2 ^ 32 -> dec32 be (size32 be n) = n.
Proof. intros [] n H; unfold dec32, size32. apply be_dec_enc. exact H. apply le_dec_enc. exact H. Qed.

Lemma fourcc_spaces : forall l, fourcc_from true l = true <-> Forall (fun b => b = 32) l.
Proof.
  induction l as [|b l IH]; cbn [fourcc_from orb]. { split; auto. }
  rewrite !andb_true_iff, IH. split.
  - intros [[_ H] F]. constructor; auto. cbn [negb orb] in H. lia.
  - intro H. inversion H; subst. repeat split; auto; reflexivity.
Qed.
Lemma all_32 : forall l : bytes, Forall (fun b => b = 32) l -> l = repeat 32 (length l).
Proof. induction 1 as [|x l H F IH]; cbn [repeat length]; congruence. Qed.
Lemma valid_fourcc_spec : forall id, valid_fourcc id = true <-> exists name n, id = name ++ repeat 0x20 n /\ Forall (fun b => 0x21 <= b <= 0x7E) name.
Proof.
  unfold valid_fourcc. induction id as [|b id IH]; cbn [fourcc_from orb].
  - split; auto. intros _. exists [], 0%nat. auto.
  - destruct (N.eqb_spec b 32) as [->|NE].
    + change (32 <=? 32) with true. change (32 <=? 126) with true. cbn [negb orb andb]. rewrite fourcc_spaces. split.
      * intro H. exists [], (S (length id)). split; auto. cbn [repeat app]. now rewrite <- all_32.
      * intros (name & n & E & F). destruct name as [|x name].
        -- destruct n; [discriminate|]. cbn [repeat app] in E. inversion E; subst. apply Forall_forall. intros x I. apply repeat_spec in I. auto.
        -- inversion E; subst. inversion F; subst. lia.
    + cbn [negb orb]. rewrite !andb_true_iff, IH. split.
      * intros [[[A B] _] (name & n & -> & F)]. exists (b :: name), n. split; auto. constructor; auto. lia.
      * intros (name & n & E & F). destruct name as [|x name].
        -- destruct n; [discriminate|]. inversion E. congruence.
        -- inversion E; subst. inversion F; subst. repeat split; try lia. eauto.
Qed.
Lemma id_ok_valid : forall id, id_ok id <-> lenN id = 4 /\ valid_fourcc id = true.
Proof. intros. unfold id_ok. rewrite valid_fourcc_spec. reflexivity. Qed.
Lemma id_nonzero : forall id, id_ok id -> exists b l, id = b :: l /\ b <> 0.
Proof.
  intros id (L & name & n & -> & F). destruct name as [|x name].
  - destruct n; [discriminate|]. exists 32, (repeat 32 n). split; auto. discriminate.
  - inversion F; subst. exists x, (name ++ repeat 32 n). split; auto. lia.
Qed.

(** The pending part of a chunk: what is left of its content. *)
Definition pad_len (size : N) : N := if N.even size then 0 else 1.
Lemma pad_of_len : forall c, lenN (pad_of c) = pad_len (lenN c).
Proof. intros. unfold pad_of, pad_len. destruct (N.even _); reflexivity. Qed.
Lemma chunk_bytes_len : forall be c, chunk_ok c -> lenN (chunk_bytes be c) = 8 + lenN (snd c) + pad_len (lenN (snd c)).
Proof. intros be [id c] [(L & _) _]. unfold chunk_bytes. cbn [fst snd] in *. rewrite !lenN_app, size32_len, pad_of_len. lia. Qed.

(** ** [skip] and [next] on well-formed chunks *)
Lemma skip_done : forall total rem lk r pos, skip (mkCh total rem 0 0 lk r pos) = Ok (mkCh total rem 0 0 lk r pos).
Proof. reflexivity. Qed.
Lemma skip_pending : forall total rem size crem lk left pad more pos,
  lenN left = crem -> lenN pad = pad_len size -> Forall (fun b => b = 0) pad -> crem + pad_len size <= rem ->
  skip (mkCh total rem size crem lk (left ++ pad ++ more) pos) = Ok (mkCh total (rem - crem - pad_len size) 0 0 lk more (pos + crem + pad_len size)).
Proof.
  intros total rem size crem lk left pad more pos L P Z R. unfold skip.
  assert (E : (if 0 <? crem then mkCh total (rem - crem) size 0 lk (dropN crem (left ++ pad ++ more)) (pos + crem)
    else mkCh total rem size crem lk (left ++ pad ++ more) pos) = mkCh total (rem - crem) size 0 lk (pad ++ more) (pos + crem)).
  { destruct (N.ltb_spec 0 crem). now rewrite dropN_app by auto. assert (crem = 0) by lia. subst crem. assert (left = []) by (now apply lenN_0). subst left. f_equal; lia. }
  rewrite E. unfold correct_position, pad_len in *. destruct (N.even size); cbn [orb].
  - assert (pad = []) by (now apply lenN_0). subst pad. cbn [bind app]. do 2 f_equal; lia.
  - destruct (N.ltb_spec (rem - crem) 1); [lia|]. destruct pad as [|z [|]]; try discriminate P. 2:{ rewrite !lenN_cons in P. lia. }
    inversion Z; subst. cbn [app read_u8 iord bind]. cbn [N.eqb negb andb bind]. reflexivity.
Qed.
Lemma next_fresh : forall be m total lk c more pos rem, chunk_ok c -> 8 <= rem -> lenN (snd c) <= rem ->
  next be m (mkCh total rem 0 0 lk (chunk_bytes be c ++ more) pos) =
  Ok (Some (mkChunk (fst c) (lenN (snd c)) (total - rem)), mkCh total (rem - 8) (lenN (snd c)) (lenN (snd c)) lk (snd c ++ pad_of (snd c) ++ more) (pos + 8)).
Proof.
  intros be m total lk [id c] more pos rem [I S] R8 R. cbn [fst snd] in *. unfold next. rewrite skip_done. cbn [bind].
  destruct (N.ltb_spec rem 8); [lia|]. apply id_ok_valid in I as [IL IV]. unfold chunk_bytes. cbn [fst snd]. rewrite <- !app_assoc.
  rewrite read_exact_app by auto. cbn [iord bind]. rewrite IV. cbn [negb]. rewrite read_exact_app by apply size32_len. cbn [iord bind]. rewrite dec_size by auto.
  destruct (N.ltb_spec rem (lenN c)); [lia|]. reflexivity.
Qed.
Lemma next_skip : forall be m s s', skip s = Ok s' -> c_size s' = 0 -> c_crem s' = 0 -> next be m s = next be m s'.
Proof.
  intros be m s [t r cs cr lk rest p] H A B. cbn [c_size c_crem] in *. subst. unfold next at 1. rewrite H. unfold next. rewrite skip_done. reflexivity.
Qed.
Lemma next_few : forall be m total rem lk r pos, rem < 8 -> next be m (mkCh total rem 0 0 lk r pos) = Ok (None, mkCh total rem 0 0 lk r pos).
Proof. intros. unfold next. rewrite skip_done. cbn [bind]. destruct (N.ltb_spec rem 8); [reflexivity|lia]. Qed.
Lemma chunk_read_app : forall n total rem size crem lk a r pos, lenN a = n -> n <= crem ->
  chunk_read n (mkCh total rem size crem lk (a ++ r) pos) = Ok (a, mkCh total (rem - n) size (crem - n) lk r (pos + n)).
Proof. intros. unfold chunk_read. destruct (N.ltb_spec crem n); [lia|]. rewrite read_exact_app by auto. reflexivity. Qed.
Lemma pad_zero : forall c, Forall (fun b => b = 0) (pad_of c).
Proof. intros. unfold pad_of. destruct (N.even _); auto. Qed.

(** ** INFO lists *)
Definition text_of (c : bytes * bytes) : list (str * str) := match utf8_decode (snd c) with Ok v => [(fst c, v)] | _ => [] end.
Definition readable (m : pmode) (c : bytes * bytes) : Prop := is_strict m = true -> exists v, utf8_decode (snd c) = Ok v.
Lemma utf8_nopanic : forall b, utf8_decode b <> Panic.
Proof. intros. unfold utf8_decode. destruct (utf8_dec b); discriminate. Qed.
Lemma body_cons : forall be c cs, body be (c :: cs) = chunk_bytes be c ++ body be cs. Proof. reflexivity. Qed.
Lemma body_app : forall be a b, body be (a ++ b) = body be a ++ body be b. Proof. intros. unfold body. apply flat_map_app. Qed.
Lemma parse_chunks : forall cs fuel m total lk more pos items rem k, Forall chunk_ok cs -> Forall (readable m) cs ->
  rem = lenN (body false cs) + k -> k < 8 -> (length cs < fuel)%nat ->
  parse_riff_info fuel m (mkCh total rem 0 0 lk (body false cs ++ more) pos) items =
  Ok (items ++ flat_map text_of cs, mkCh total k 0 0 lk more (pos + lenN (body false cs))).
Proof.
  induction cs as [|c cs IH]; intros fuel m total lk more pos items rem k OK RD R K F; (destruct fuel as [|fuel]; [cbn [length] in F; lia|]); cbn [parse_riff_info].
  - cbn [body flat_map app] in *. change (lenN (@nil N)) with 0 in *. rewrite next_few by lia. cbn [bind]. rewrite app_nil_r. do 3 f_equal; lia.
  - inversion OK as [|? ? O1 O2]; subst. inversion RD as [|? ? R1 R2]; subst. rewrite body_cons, lenN_app, (chunk_bytes_len _ _ O1), <- app_assoc in *.
    rewrite next_fresh by (auto; lia). cbn [bind k_size k_fourcc]. rewrite chunk_read_app by (auto; lia). cbn [bind].
    set (rem := 8 + lenN (snd c) + pad_len (lenN (snd c)) + lenN (body false cs) + k).
    assert (SK : forall it, parse_riff_info fuel m (mkCh total (rem - 8 - lenN (snd c)) (lenN (snd c)) (lenN (snd c) - lenN (snd c)) lk (pad_of (snd c) ++ body false cs ++ more) (pos + 8 + lenN (snd c))) it =
      Ok (it ++ flat_map text_of cs, mkCh total k 0 0 lk more (pos + (8 + lenN (snd c) + pad_len (lenN (snd c)) + lenN (body false cs))))).
    { intro it. assert (SKP := skip_pending total (rem - 8 - lenN (snd c)) (lenN (snd c)) (lenN (snd c) - lenN (snd c)) lk [] (pad_of (snd c)) (body false cs ++ more) (pos + 8 + lenN (snd c))).
      cbn [app] in SKP. rewrite pad_of_len in SKP. specialize (SKP ltac:(change (lenN (@nil N)) with 0; lia) eq_refl (pad_zero _) ltac:(unfold rem; lia)).
      destruct fuel as [|fuel']; [cbn [length] in F; lia|]. cbn [parse_riff_info].
      rewrite (next_skip _ _ _ _ SKP eq_refl eq_refl).
      specialize (IH (S fuel') m total lk more (pos + 8 + lenN (snd c) + (lenN (snd c) - lenN (snd c)) + pad_len (lenN (snd c))) it (rem - 8 - lenN (snd c) - (lenN (snd c) - lenN (snd c)) - pad_len (lenN (snd c))) k O2 R2 ltac:(unfold rem; lia) K ltac:(cbn [length] in F; lia)).
      cbn [parse_riff_info] in IH. rewrite IH. do 3 f_equal. lia. }
    pose proof (utf8_nopanic (snd c)) as NP. cbn [flat_map]. unfold text_of at 1. destruct (utf8_decode (snd c)) as [v|e|] eqn:E; [| |congruence].
    + rewrite SK. rewrite <- app_assoc. reflexivity.
    + destruct (is_strict m) eqn:S. { destruct (R1 S). congruence. } rewrite SK. reflexivity.
Qed.

(** The items lofty writes. *)
Definition item_chunk (i : str * str) : bytes * bytes := (utf8_enc (fst i), utf8_enc (snd i) ++ [0]).
Definition item_ok (i : str * str) : Prop :=
  id_ok (fst i) /\ str_ok (snd i) /\ snd i <> [] /\ last (snd i) 1 <> 0 /\ lenN (utf8_enc (snd i)) + 1 < 2 ^ 32.
Lemma ascii_enc : forall s, Forall (fun b => b < 128) s -> utf8_enc s = s.
Proof.
  induction 1 as [|x l H F IH]; [reflexivity|]. cbn [utf8_enc]. rewrite IH. unfold utf8_char.
  destruct (N.ltb_spec x 128); [reflexivity|lia].
Qed.
Lemma id_ascii : forall id, id_ok id -> Forall (fun b => b < 128) id.
Proof.
  intros id (_ & name & n & -> & F). apply Forall_app. split. eapply Forall_impl; [|exact F]. cbv beta. lia.
  apply Forall_forall. intros x I. apply repeat_spec in I. subst. reflexivity.
Qed.
Lemma item_bytes_chunk : forall i, item_ok i -> riff_item_bytes i = chunk_bytes false (item_chunk i).
Proof.
  intros [k v] (I & S & NE & LT & L). cbn [fst snd] in *. unfold riff_item_bytes, chunk_bytes, item_chunk. cbn [fst snd]. destruct v as [|x v']; [congruence|].
  set (b := utf8_enc (x :: v')) in *. rewrite N.mod_small by auto. unfold pad_of, size32. rewrite lenN_app. change (lenN [0]) with 1.
  destruct (N.even (lenN b + 1)); rewrite <- !app_assoc; reflexivity.
Qed.
Lemma item_chunk_ok : forall i, item_ok i -> chunk_ok (item_chunk i).
Proof.
  intros [k v] (I & S & NE & LT & L). split; cbn [fst snd item_chunk] in *. rewrite ascii_enc; auto. now apply id_ascii. rewrite lenN_app. exact L.
Qed.
Lemma item_text : forall i, item_ok i -> utf8_decode (snd (item_chunk i)) = Ok (snd i) /\ text_of (item_chunk i) = [i].
Proof.
  intros [k v] (I & S & NE & LT & L). cbn [fst snd item_chunk] in *.
  assert (E : utf8_decode (utf8_enc v ++ [0]) = Ok v).
  { unfold utf8_decode. replace (utf8_enc v ++ [0]) with (utf8_enc (v ++ [0])). 2:{ rewrite utf8_enc_app. reflexivity. }
    rewrite utf8_dec_enc. 2:{ apply Forall_app. split; auto. constructor; auto. reflexivity. }
    f_equal. symmetry. apply trim_unique. split; [exists 1%nat; reflexivity|exact LT]. }
  split; auto. unfold text_of, item_chunk. cbn [fst snd]. rewrite E. rewrite ascii_enc; auto. now apply id_ascii.
Qed.

(** ** Walking over chunks, from any state that [skip] brings to the start of the next chunk *)
Definition fresh (total rem : N) (lk : option (N * N)) (r : bytes) (pos : N) : chunks := mkCh total rem 0 0 lk r pos.
Definition inside (be : bool) (total rem : N) (lk : option (N * N)) (c : bytes * bytes) (more : bytes) (pos : N) : chunks :=
  mkCh total (rem - 8) (lenN (snd c)) (lenN (snd c)) lk (snd c ++ pad_of (snd c) ++ more) (pos + 8).
Lemma next_at : forall be m s total rem lk c more pos, skip s = Ok (fresh total rem lk (chunk_bytes be c ++ more) pos) -> chunk_ok c -> lenN (chunk_bytes be c) <= rem ->
  next be m s = Ok (Some (mkChunk (fst c) (lenN (snd c)) (total - rem)), inside be total rem lk c more pos).
Proof.
  intros be m s total rem lk c more pos SK O R. rewrite chunk_bytes_len in R by auto. rewrite (next_skip _ _ _ _ SK eq_refl eq_refl). unfold fresh. now rewrite next_fresh by (auto; lia).
Qed.
Lemma next_none : forall be m s total rem lk r pos, skip s = Ok (fresh total rem lk r pos) -> rem < 8 -> next be m s = Ok (None, fresh total rem lk r pos).
Proof. intros. rewrite (next_skip _ _ _ _ H eq_refl eq_refl). now apply next_few. Qed.
Lemma read_inside : forall be total rem lk c more pos n, chunk_ok c -> n <= lenN (snd c) ->
  chunk_read n (inside be total rem lk c more pos) =
  Ok (takeN n (snd c), mkCh total (rem - 8 - n) (lenN (snd c)) (lenN (snd c) - n) lk (dropN n (snd c) ++ pad_of (snd c) ++ more) (pos + 8 + n)).
Proof.
  intros be total rem lk c more pos n O L. unfold inside. rewrite <- (takeN_dropN _ n (snd c)) at 3. rewrite <- app_assoc.
  apply chunk_read_app; auto. rewrite lenN_takeN. lia.
Qed.
Lemma skip_read : forall be total rem lk c more pos n, chunk_ok c -> n <= lenN (snd c) -> lenN (chunk_bytes be c) <= rem ->
  skip (mkCh total (rem - 8 - n) (lenN (snd c)) (lenN (snd c) - n) lk (dropN n (snd c) ++ pad_of (snd c) ++ more) (pos + 8 + n)) =
  Ok (fresh total (rem - lenN (chunk_bytes be c)) lk more (pos + lenN (chunk_bytes be c))).
Proof.
  intros be total rem lk c more pos n O L R. rewrite chunk_bytes_len in * by auto. rewrite skip_pending; [|rewrite lenN_dropN; lia|apply pad_of_len|apply pad_zero|lia].
  unfold fresh. do 2 f_equal; lia.
Qed.
Lemma skip_inside : forall be total rem lk c more pos, chunk_ok c -> lenN (chunk_bytes be c) <= rem ->
  skip (inside be total rem lk c more pos) = Ok (fresh total (rem - lenN (chunk_bytes be c)) lk more (pos + lenN (chunk_bytes be c))).
Proof.
  intros be total rem lk c more pos O R. rewrite chunk_bytes_len in * by auto. unfold inside. rewrite skip_pending; [|auto|apply pad_of_len|apply pad_zero|lia].
  unfold fresh. do 2 f_equal; lia.
Qed.

(** ** [find_info_list] *)
Definition is_info (c : bytes * bytes) : bool := list_eqb (fst c) ($"LIST") && list_eqb (takeN 4 (snd c)) ($"INFO").
Definition list_ok (c : bytes * bytes) : Prop := fst c = $"LIST" -> 4 <= lenN (snd c).
Lemma find_info : forall a fuel m s total rem lk more pos found k, Forall chunk_ok a -> Forall list_ok a -> Forall (fun c => is_info c = false) a ->
  skip s = Ok (fresh total rem lk (body false a ++ more) pos) -> lenN (body false a) <= rem -> (length a < fuel)%nat ->
  match found with
  | None => rem - lenN (body false a) = k /\ k < 8
  | Some c => exists more', more = chunk_bytes false c ++ more' /\ chunk_ok c /\ list_ok c /\ is_info c = true /\ lenN (body false a) + lenN (chunk_bytes false c) <= rem
  end ->
  find_info_list fuel m s = Ok (match found with None => None | Some c => Some (pos + lenN (body false a) + 12, lenN (snd c)) end).
Proof.
  induction a as [|c a IH]; intros fuel m s total rem lk more pos found k OK LO NI SK R F FD; (destruct fuel as [|fuel]; [cbn [length] in F; lia|]); cbn [find_info_list].
  - cbn [body flat_map app] in *. change (lenN (@nil N)) with 0 in *. destruct found as [c|].
    + destruct FD as (more' & -> & CO & L & I & R2). rewrite (next_at false m s total rem lk c more' pos) by (auto; lia). cbn [bind k_fourcc k_size].
      unfold is_info in I. apply andb_true_iff in I as [I1 I2]. rewrite I1. cbn [negb]. apply list_eqb_eq in I1. specialize (L I1).
      rewrite read_inside by auto. cbn [bind]. rewrite I2. cbn [c_pos]. do 3 f_equal. lia.
    + destruct FD. rewrite (next_none _ m s total rem lk more pos) by (auto; lia). reflexivity.
  - inversion OK as [|? ? O1 O2]; subst. inversion LO as [|? ? L1 L2]; subst. inversion NI as [|? ? N1 N2]; subst.
    rewrite body_cons, <- app_assoc in SK. rewrite body_cons, lenN_app in R, FD |- *.
    rewrite (next_at false m s total rem lk c (body false a ++ more) pos) by (auto; lia). cbn [bind k_fourcc k_size].
    assert (FD' : match found with
      | None => rem - lenN (chunk_bytes false c) - lenN (body false a) = k /\ k < 8
      | Some c0 => exists more', more = chunk_bytes false c0 ++ more' /\ chunk_ok c0 /\ list_ok c0 /\ is_info c0 = true /\ lenN (body false a) + lenN (chunk_bytes false c0) <= rem - lenN (chunk_bytes false c)
      end).
    { destruct found; [|lia]. destruct FD as (more' & A & B & C & D & E). exists more'. refine (conj A (conj B (conj C (conj D _)))). lia. }
    assert (R1 : lenN (chunk_bytes false c) <= rem) by lia.
    assert (R2 : lenN (body false a) <= rem - lenN (chunk_bytes false c)) by lia. assert (F2 : (length a < fuel)%nat) by (cbn [length] in F; lia).
    unfold is_info in N1. destruct (list_eqb (fst c) ($"LIST")) eqn:EL; cbn [negb].
    + apply list_eqb_eq in EL. specialize (L1 EL). rewrite read_inside by auto. cbn [bind andb] in *. rewrite N1.
      rewrite (IH fuel m _ total (rem - lenN (chunk_bytes false c)) lk more (pos + lenN (chunk_bytes false c)) found k O2 L2 N2 (skip_read _ _ _ _ _ _ _ _ O1 L1 R1) R2 F2 FD').
      destruct found; do 3 f_equal; lia.
    + rewrite (IH fuel m _ total (rem - lenN (chunk_bytes false c)) lk more (pos + lenN (chunk_bytes false c)) found k O2 L2 N2 (skip_inside _ _ _ _ _ _ _ O1 R1) R2 F2 FD').
      destruct found; do 3 f_equal; lia.
Qed.
Lemma verify_wav_ok : forall cs junk, 4 + lenN (body false cs) < 2 ^ 32 -> verify_wav (riff_file cs ++ junk) = Ok (4 + lenN (body false cs), body false cs ++ junk).
Proof.
  intros cs junk L. unfold verify_wav, riff_file, iff_file. rewrite <- !app_assoc. set (h := $"RIFF" ++ size32 false (4 + lenN (body false cs)) ++ $"WAVE").
  replace ($"RIFF" ++ size32 false (4 + lenN (body false cs)) ++ $"WAVE" ++ body false cs ++ junk) with (h ++ body false cs ++ junk) by (unfold h; now rewrite <- !app_assoc).
  assert (LH : lenN h = 12) by (unfold h; rewrite !lenN_app, size32_len; reflexivity).
  rewrite read_exact_app by auto. cbn [iord bind]. unfold h at 1 2. rewrite takeN_app by reflexivity. rewrite dropN_app_ge by (cbv; discriminate).
  change (8 - lenN ($"RIFF")) with 4. rewrite dropN_app by apply size32_len. change (list_eqb ($"RIFF") ($"RIFF") && list_eqb ($"WAVE") ($"WAVE")) with true. cbn iota.
  unfold h. rewrite dropN_app by reflexivity. rewrite takeN_app by apply size32_len. unfold size32. rewrite le_dec_enc by exact L. reflexivity.
Qed.
Lemma body_count : forall cs, Forall chunk_ok cs -> (length cs <= length (body false cs))%nat.
Proof.
  induction 1 as [|c cs O F IH]; [auto|]. rewrite body_cons, app_length. cbn [length]. pose proof (chunk_bytes_len false c O). unfold lenN in *. lia.
Qed.
