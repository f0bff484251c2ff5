(** Theorems about ID3v2.2 tags, single frames, checksums and volume adjustments: C163, C174, C175, and more of C140, C142, C146. *)
From Verif Require Import BaseLemmas SynchProof TextProof TextThm.
From Verif Require Import FrameProof1 FrameProof2 FrameThm FrameListSpec FrameListProof FrameListThm Frame23Proof FrameOldSpec FrameOldProof.

(** ** C163: ID3v2.2 tags. *)
Theorem C163_tag : forall w inflate h o l tail raw rest,
  w_v23 w = true -> h_version h = V2 -> Forall (entry_ok w (fo_mode o)) l -> (fo_cover o = true \/ ~ In ($"PIC") (map e_name l)) ->
  NoDup (map identity_of (map e_frame l)) -> hd 0 tail = 0 ->
  raw = (if tf_unsync (h_flags h) then unsynchronise (tag22 l ++ tail) else tag22 l ++ tail) -> h_size h - h_ext_size h = lenN raw ->
  parse_id3v2 inflate h o (raw ++ rest) = Ok (mkT V2 (h_flags h) (map e_frame l), rest).
Proof.
  intros w inflate h o l tail raw rest W Hv F Cv ND Ht Hr Hs. unfold parse_id3v2. rewrite Hv, Hs. cbv zeta. cbn [is_v4 is_v3 negb].
  rewrite takeN_app, dropN_app by reflexivity. rewrite andb_true_r, andb_false_r.
  assert ((if tf_unsync (h_flags h) then resynchronise raw else raw) = tag22 l ++ tail) as ->.
  { subst raw. destruct (tf_unsync (h_flags h)); auto. apply resync_unsync. }
  rewrite (all22 w inflate _ o W l []); auto. rewrite app_length. lia.
Qed.
Print Assumptions C163_tag.
(** A tag with every sort of name: a text, an old date, a name without a successor, a picture. *)
Definition ex22 : list entry22 :=
  [mkE ($"TT2") (FText (new_header ($"TIT2")) Latin1 ($"Song")) (0 :: $"Song");
   mkE ($"TYE") (FTime (new_header ($"TDRC")) Latin1 (mkTs 1998 None None None None None)) (0 :: $"1998");
   mkE ($"TSI") (FText (mkFH (Outdated ($"TSI")) ff_default) Latin1 ($"9")) (0 :: $"9");
   mkE ($"CNT") (FBin (new_header ($"PCNT")) [0; 0; 0xFF; 0]) [0; 0; 0xFF; 0];
   mkE ($"PIC") (FPicture (new_header ($"APIC")) Latin1 (mkPic (pic_from_u8 3) (Some Jpeg) None [0xFF; 0xD8])) (0 :: $"JPG" ++ [3; 0; 0xFF; 0xD8])].
Definition ex22_w : wopts := mkW true false false None.
Example C163_ex : Forall (entry_ok ex22_w BestAttempt) ex22 /\ NoDup (map identity_of (map e_frame ex22)) /\
  let raw := unsynchronise (tag22 ex22 ++ [0; 0]) in
  parse_id3v2 (fun _ => None) (mkHdr V2 (mkTFlags true false false false None) (lenN raw) 0) (mkFO BestAttempt true true) (raw ++ [7]) =
  Ok (mkT V2 (mkTFlags true false false false None) (map e_frame ex22), [7]).
Proof.
  assert (A : Forall (entry_ok ex22_w BestAttempt) ex22).
  { unfold ex22. repeat constructor; try reflexivity.
    - apply (f22_known ex22_w BestAttempt ($"TT2") ($"TIT2") (FText (new_header ($"TIT2")) Latin1 ($"Song"))); try reflexivity; try discriminate.
      unfold NAMES22. cbn [In]. tauto. intro X. cbn in X. repeat destruct X as [X|X]; try discriminate X; auto.
      split. apply ascii_ok. repeat (constructor; [reflexivity|]); constructor. split. discriminate. cbn. repeat (constructor; [discriminate|]); constructor.
    - apply (f22_known ex22_w BestAttempt ($"TYE") ($"TDRC") (FTime (new_header ($"TDRC")) Latin1 (mkTs 1998 None None None None None))); try reflexivity; try discriminate.
      unfold NAMES22. cbn [In]. tauto. intro X. cbn in X. repeat destruct X as [X|X]; try discriminate X; auto.
    - apply (f22_other ex22_w BestAttempt ($"TSI") (FText (mkFH (Outdated ($"TSI")) ff_default) Latin1 ($"9"))); try reflexivity.
      split; [reflexivity|]. apply all_chars. reflexivity.
      intro X. apply in_names_spec in X. discriminate X.
      split. apply ascii_ok. repeat (constructor; [reflexivity|]); constructor. split. discriminate. cbn. repeat (constructor; [discriminate|]); constructor.
    - apply (f22_known ex22_w BestAttempt ($"CNT") ($"PCNT") (FBin (new_header ($"PCNT")) [0; 0; 0xFF; 0])); try reflexivity; try discriminate.
      unfold NAMES22. cbn [In]. tauto. intro X. cbn in X. repeat destruct X as [X|X]; try discriminate X; auto.
    - apply (f22_picture ex22_w BestAttempt ($"JPG") Jpeg Latin1 3 [] [] [0xFF; 0xD8]). cbn. tauto. reflexivity.
      split. constructor. split; constructor. split; [reflexivity|constructor]. }
  split; auto. assert (ND : NoDup (map identity_of (map e_frame ex22))).
  { cbn. repeat (constructor; [cbn; intro X; repeat destruct X as [X|X]; try discriminate X; auto|]). constructor. }
  split; [exact ND|]. cbv zeta.
  apply (C163_tag ex22_w) with (tail := [0; 0]); auto.
Qed.
(** The names of the original artist and of the text writer are taken for others. *)
Theorem C163_artist_refuted : forall inflate kids u o c f rest, lenN c < 2 ^ 24 -> c <> [] ->
  parse_content kids (Valid ($"TOAL")) ff_default V2 (fo_mode o) c = Ok (Some f, []) ->
  In ($"TOA", $"TOPE") NAMES22 /\ read_frame inflate kids V2 u o (stored22 ($"TOA") c ++ rest) = Ok (PNext f, rest).
Proof.
  intros. split. unfold NAMES22. cbn [In]. tauto.
  apply (frame_read inflate kids u o ($"TOA") (Valid ($"TOAL")) c f []); auto.
  split; [reflexivity|]. apply all_chars. reflexivity. right. discriminate.
Qed.
Print Assumptions C163_artist_refuted.
Theorem C163_writer_refuted : forall inflate kids u o c f rest, lenN c < 2 ^ 24 -> c <> [] ->
  parse_content kids (Valid ($"TOLY")) ff_default V2 (fo_mode o) c = Ok (Some f, []) ->
  In ($"TXT", $"TEXT") NAMES22 /\ read_frame inflate kids V2 u o (stored22 ($"TXT") c ++ rest) = Ok (PNext f, rest).
Proof.
  intros. split. unfold NAMES22. cbn [In]. tauto.
  apply (frame_read inflate kids u o ($"TXT") (Valid ($"TOLY")) c f []); auto.
  split; [reflexivity|]. apply all_chars. reflexivity. right. discriminate.
Qed.
Print Assumptions C163_writer_refuted.
Example C163_wrong_ex :
  read_frame (fun _ => None) (fun _ => Panic) V2 false (mkFO BestAttempt true true) (stored22 ($"TOA") (0 :: $"Elvis")) =
    Ok (PNext (FText (new_header ($"TOAL")) Latin1 ($"Elvis")), []) /\
  read_frame (fun _ => None) (fun _ => Panic) V2 false (mkFO BestAttempt true true) (stored22 ($"TXT") (0 :: $"Elvis")) =
    Ok (PNext (FText (new_header ($"TOLY")) Latin1 ($"Elvis")), []).
Proof. vm_compute. auto. Qed.
(** The same for unsynchronised ID3v2.3 tags: they are what they were before. *)
Lemma all_unsync : forall inflate o fuel u acc r, read_all inflate fuel V3 u o acc r = read_all inflate fuel V3 false o acc r.
Proof.
  intros inflate o. induction fuel as [|fuel IH]; intros u acc r; cbn [read_all]; auto.
  assert (E : forall kids, read_frame inflate kids V3 u o r = read_frame inflate kids V3 false o r).
  { intro kids. unfold read_frame. cbn [is_v2 is_v4]. now rewrite !andb_false_r. }
  rewrite E. destruct (read_frame _ _ _ _ _ _) as [[[f| |] r']| |]; cbn [bind]; auto.
Qed.
Theorem C163_unsync23 : forall inflate f size o body rest, tf_unsync f = false ->
  let f' := mkTFlags true (tf_experimental f) (tf_footer f) (tf_crc f) (tf_restrictions f) in
  forall t, parse_id3v2 inflate (mkHdr V3 f (lenN body) 0) o (body ++ rest) = Ok (t, rest) -> size = lenN (unsynchronise body) ->
  parse_id3v2 inflate (mkHdr V3 f' size 0) o (unsynchronise body ++ rest) = Ok (mkT V3 f' (t_frames t), rest).
Proof.
  intros inflate f size o body rest U f' t E ->. unfold parse_id3v2 in *. cbv zeta in *. cbn [h_version h_flags h_size h_ext_size is_v4 negb] in *.
  rewrite U in E. subst f'. cbn [tf_unsync]. rewrite N.sub_0_r in *. rewrite takeN_app, dropN_app in * by reflexivity. cbn [andb] in *.
  rewrite resync_unsync. rewrite all_unsync. destruct (read_all _ _ _ _ _ _ _) as [[l x]| |]; cbn [bind] in *; try discriminate E.
  injection E as <-. reflexivity.
Qed.
Print Assumptions C163_unsync23.
Example C163_unsync23_ex :
  let body := $"PRIV" ++ [0; 0; 0; 5; 0; 0; 97; 0; 0xFF; 0; 0xE0] in
  exists t, parse_id3v2 (fun _ => None) (mkHdr V3 (mkTFlags false false false false None) (lenN body) 0) (mkFO Strict true true) body = Ok (t, []) /\
  t_frames t = [FPriv (new_header ($"PRIV")) ($"a") [0xFF; 0; 0xE0]].
Proof. eexists. split; vm_compute; reflexivity. Qed.

(** ** C142 (more): which frames are single, and which say nothing. *)
Theorem C142_single : forall f l, In (f_name f) SINGLES -> filter (fun g => id_eqb (f_id g) (f_id f)) (fst (fl_insert f l)) = [f].
Proof.
  intros f l I. unfold fl_insert.
  assert (A : forallb (fun s => in_names s ONE_PER_TAG) SINGLES = true) by (vm_compute; reflexivity).
  rewrite forallb_forall in A. rewrite (A _ I). cbn [fst]. rewrite filter_app. cbn [filter].
  assert (id_eqb (f_id f) (f_id f) = true) as -> by now apply id_eqb_eq. rewrite filter_none; auto.
  apply Forall_forall. intros g J. destruct (id_eqb (f_id g) (f_id f)) eqn:E; auto. exfalso.
  apply (Permutation.Permutation_in _ (remove_perm (f_id f) l)) in J. apply filter_In in J as [_ J]. unfold other_than in J. now rewrite E in J.
Qed.
Print Assumptions C142_single.
Theorem C142_several : forall f l, ~ In (f_name f) SINGLES -> forall g, In g l -> frame_eqb g f = false -> In g (fst (fl_insert f l)).
Proof.
  intros f l NI g I E. unfold fl_insert.
  assert (in_names (f_name f) ONE_PER_TAG = false) as ->.
  { destruct (in_names (f_name f) ONE_PER_TAG) eqn:S; auto. exfalso. apply NI. apply in_names_spec in S.
    assert (A : forallb (fun s => in_names s SINGLES) ONE_PER_TAG = true) by (vm_compute; reflexivity).
    rewrite forallb_forall in A. apply in_names_spec. auto. }
  assert (X : In g (snd (take_first (fun g => frame_eqb g f) l))).
  { induction l as [|x l IH]; [contradiction|]. cbn [take_first]. destruct I as [-> |I].
    - rewrite E. destruct (take_first _ l). now left.
    - destruct (frame_eqb x f); auto. specialize (IH I). destruct (take_first _ l). now right. }
  destruct (take_first _ l) as [o r]. cbn [fst snd] in *. apply in_or_app. now left.
Qed.
Print Assumptions C142_several.
Theorem C142_says : forall f, (f_is_empty f = Some true <-> says f false) /\ (f_is_empty f = Some false <-> says f true).
Proof.
  assert (X : forall A (l : list A), (Some (empty l) = Some true <-> l = []) /\ (Some (empty l) = Some false <-> l <> [])).
  { intros A [|x l]; cbn [empty]; repeat split; intros; try discriminate; auto; congruence. }
  destruct f; cbn [f_is_empty says]; try apply X; split; split; intros; try discriminate; try contradiction.
Qed.
Print Assumptions C142_says.
(** So an empty frame does not take the place of one that says something, and only then is the later frame dropped. *)
Theorem C142_empty : forall f l old, sane f -> tidy (inside f) -> tidy l -> In old l -> identity_of old = identity_of f ->
  (says f false /\ says old true -> Permutation.Permutation (add_read f l) l) /\
  (~ (says f false /\ says old true) -> In f (add_read f l) /\ (old <> f -> ~ In old (add_read f l))).
Proof.
  intros f l old Sf Tf T I Id. destruct (C142_kept f l Sf Tf T) as (others & NI & H).
  assert (Q : forall g, Permutation.Permutation l (g :: others) -> identity_of g = identity_of f -> g = old).
  { intros g P _. apply (Permutation.Permutation_in _ P) in I as [I|I]; auto. exfalso. apply NI. rewrite <- Id. now apply in_map. }
  assert (S1 : forall g, f_is_empty f = Some true /\ f_is_empty g = Some false <-> says f false /\ says g true).
  { intro g. destruct (C142_says f) as [A _]. destruct (C142_says g) as [_ B]. tauto. }
  destruct H as [[P O]|(g & P & P' & Ig & E1 & E2)].
  - destruct O as [O|(g & O & Ig & NE)].
    + exfalso. apply NI. rewrite <- Id. apply in_map. now apply (Permutation.Permutation_in _ O).
    + assert (g = old) as -> by auto. rewrite S1 in NE. split; intro Hs; [contradiction|]. split.
      * apply (Permutation.Permutation_in _ (Permutation.Permutation_sym P)). now left.
      * intros D J. apply (Permutation.Permutation_in _ P) in J as [J|J]; [congruence|]. apply NI. rewrite <- Id. now apply in_map.
  - assert (g = old) as -> by auto. split; intro Hs.
    + rewrite P. now apply Permutation.Permutation_sym.
    + exfalso. apply Hs. apply S1. auto.
Qed.
Print Assumptions C142_empty.
Example C142_empty_ex :
  let u d := FUfid (new_header ($"UFID")) ($"a") d in
  add_read (u []) [u [1]] = [u [1]] /\ add_read (u [2]) [u [1]] = [u [2]] /\
  let c d := FBin (new_header ($"PCNT")) d in
  fst (fl_insert (c [2]) [c [1]]) = [c [2]] /\
  let g d := FBin (new_header ($"GEOB")) d in fst (fl_insert (g [2]) [g [1]]) = [g [1]; g [2]].
Proof. vm_compute. auto. Qed.

(** ** C146 (more): a timestamp that is not one. *)
Theorem C146_timestamp : forall kids v m name fl b text, In name TIME_IDS ->
  (enc_of_u8 b = None \/ exists e d r x, enc_of_u8 b = Some e /\ dec_rest e text = Ok (d, r) /\ ts_parse (utf8_enc (d_content d)) m = Err x) ->
  match parse_content kids (Valid name) fl v m (b :: text) with
  | Ok (None, _) => m = Relaxed
  | Err _ => m <> Relaxed
  | _ => False
  end.
Proof.
  intros kids v m name fl b text I H. rewrite dispatch. cbv zeta.
  assert (kind_of_name name = KTime) as ->. { unfold TIME_IDS in I. cbn [In] in I. repeat destruct I as [<- | I]; try reflexivity. contradiction. }
  unfold parse_time. cbn [read_u8 from_opt bind]. destruct H as [-> |(e & d & r & x & -> & -> & E)].
  - destruct m; cbn; congruence.
  - cbn [bind]. rewrite E. destruct m; cbn; congruence.
Qed.
Print Assumptions C146_timestamp.
Example C146_timestamp_ex :
  let c := 0 :: $"abcd" in let p m := parse_content (fun _ => Panic) (Valid ($"TDRC")) ff_default V4 m c in
  p Relaxed = Ok (None, []) /\ p BestAttempt = Err ETime /\ p Strict = Err ETime.
Proof. vm_compute. auto. Qed.

(** ** C140 (more): a date that is not four digits long is left alone; a doubled parenthesis. *)
Theorem C140_odd_date : forall h e t l s, hd_error (fl_removed TDRC l) = Some (FTime h e t) -> ts_month t = None ->
  fl_get_text TDAT (fl_remove TDRC l) = Some s -> lenN s <> 4 ->
  construct_tdrc l = fst (fl_insert (FTime (mkFH TDRC ff_default) e (mkTs (ts_year t) None None None None None)) (fl_remove TDRC l)).
Proof.
  intros h e t l s Hd Hm Ht Hs. unfold construct_tdrc. rewrite Hd. cbv zeta. rewrite Hm. unfold text_pair. rewrite Ht. unfold two_u8.
  destruct (N.eqb_spec (lenN s) 4); [contradiction|]. reflexivity.
Qed.
Print Assumptions C140_odd_date.
Example C140_odd_date_ex :
  let y := FTime (new_header ($"TDRC")) Latin1 (mkTs 1998 None None None None None) in let d := FText (new_header ($"TDAT")) Latin1 ($"25123") in
  construct_tdrc [y; d] = [d; y].
Proof. vm_compute. reflexivity. Qed.
Lemma iter_fuel : forall b s n, Forall (fun x => x <> 0) s -> (length s <= n)%nat -> genres_iter n b s = genres_iter (length s) b s.
Proof.
  intros b s. remember (length s) as k. assert (length s <= k)%nat by lia. clear Heqk.
  assert (G : forall k s, (length s <= k)%nat -> Forall (fun x => x <> 0) s -> forall n, (k <= n)%nat -> genres_iter n b s = genres_iter k b s).
  { clear. induction k as [|k IH]; intros s L F n Hn.
    - destruct s; [|cbn in L; lia]. destruct n; reflexivity.
    - destruct n as [|n]; [lia|]. destruct s as [|c s]; auto. cbn [genres_iter]. rewrite (find_none_c 0) by auto.
      destruct (find_char 41 (c :: s)) as [i|]; auto. destruct (starts 40 (c :: s)); auto. f_equal. apply IH; [| |lia].
      + unfold dropN. rewrite skipn_length. cbn [length] in *. lia.
      + unfold dropN. rewrite <- (firstn_skipn (N.to_nat (i + 1)) (c :: s)) in F. apply Forall_app in F. apply F. }
  intros n F Hn. now apply G.
Qed.
Theorem C140_parentheses : forall p name rest, Forall (fun c => c <> 0 /\ c <> 41) name -> Forall (fun c => c <> 0) rest -> 1 < lenN (utf8_enc name) ->
  genres p ($"((" ++ name ++ $")" ++ rest) = ($"(" ++ name ++ $")") :: genres p rest.
Proof.
  intros p name rest Hn Hr L. unfold genres. change ($"((" ++ name ++ $")" ++ rest) with (40 :: 40 :: name ++ 41 :: rest).
  change ($"(" ++ name ++ $")") with (40 :: name ++ [41]).
  assert (Hn0 : Forall (fun c => c <> 0) name) by (eapply Forall_impl; [|exact Hn]; cbv beta; tauto).
  change (@length N (40 :: 40 :: name ++ 41 :: rest)) with (S (S (@length N (name ++ 41 :: rest)))).
  assert (K : (@length N rest <= S (@length N (name ++ 41%N :: rest)))%nat) by (rewrite app_length; cbn [length]; lia).
  revert K. generalize (S (length (name ++ 41 :: rest))). intros k K. cbn [genres_iter]. rewrite (find_none_c 0).
  2: { constructor. discriminate. constructor. discriminate. apply Forall_app. split; auto. constructor; auto. discriminate. }
  change (40 :: 40 :: name ++ 41 :: rest) with ((40 :: 40 :: name) ++ 41 :: rest). rewrite find_first.
  2: { constructor. discriminate. constructor. discriminate. eapply Forall_impl; [|exact Hn]. cbv beta. tauto. }
  cbn [app starts]. change (dropN 1 (40 :: 40 :: name ++ 41 :: rest)) with (40 :: name ++ 41 :: rest). cbn [starts]. change (40 =? 40) with true. cbv iota.
  rewrite !lenN_cons. replace (1 + (1 + lenN name) + 1 - 1) with (lenN (40 :: name ++ [41])) by (rewrite lenN_cons, lenN_app; change (lenN [41]) with 1; lia).
  replace (40 :: name ++ 41 :: rest) with ((40 :: name ++ [41]) ++ rest) by (cbn [app]; now rewrite <- app_assoc). rewrite takeN_app by auto.
  f_equal.
  - unfold parse_genre. assert (H : 3 <? lenN (utf8_enc (40 :: name ++ [41])) = true).
    { cbn [utf8_enc]. rewrite utf8_enc_app. rewrite !lenN_app. cbn [utf8_enc]. rewrite lenN_app. change (lenN (utf8_char 40)) with 1.
      change (lenN (utf8_char 41)) with 1. apply N.ltb_lt. lia. }
    rewrite H. reflexivity.
  - replace (1 + (1 + lenN name) + 1) with (lenN (40 :: 40 :: name ++ [41])) by (rewrite !lenN_cons, lenN_app; change (lenN [41]) with 1; lia).
    change (40 :: (40 :: name ++ [41]) ++ rest) with ((40 :: 40 :: name ++ [41]) ++ rest). rewrite dropN_app by auto. now apply iter_fuel.
Qed.
Print Assumptions C140_parentheses.
Example C140_parentheses_ex : genres false ($"((Rock)(17)") = [$"(Rock)"; $"Rock"].
Proof. vm_compute. reflexivity. Qed.

(** ** C174: the checksum. *)
Lemma poly_value : crc_poly = 0xEDB88320. Proof. vm_compute. reflexivity. Qed.
Definition step0 (x : N) : N := N.lxor (N.shiftr x 1) (if N.odd x then crc_poly else 0).
Lemma step0_crc : forall x, (if N.odd x then N.lxor 0xEDB88320 (N.shiftr x 1) else N.shiftr x 1) = step0 x.
Proof. intros. unfold step0. rewrite poly_value. destruct (N.odd x). apply N.lxor_comm. now rewrite N.lxor_0_r. Qed.
Lemma step0_even : forall x y, step0 (N.lxor x (2 * y)) = N.lxor (step0 x) y.
Proof.
  intros. unfold step0. rewrite N.shiftr_lxor. replace (N.shiftr (2 * y) 1) with y.
  2: { rewrite N.shiftr_div_pow2. change (2 ^ 1) with 2. rewrite N.mul_comm, N.div_mul; auto. discriminate. }
  replace (N.odd (N.lxor x (2 * y))) with (N.odd x).
  2: { rewrite <- !N.bit0_odd, N.lxor_spec, N.testbit_even_0. now rewrite xorb_false_r. }
  rewrite !N.lxor_assoc. f_equal. apply N.lxor_comm.
Qed.
Lemma fold_even : forall n x y, crc_fold n (N.lxor x (2 ^ N.of_nat n * y)) = N.lxor (crc_fold n x) y.
Proof.
  induction n; intros; cbn [crc_fold]. change (2 ^ N.of_nat 0) with 1. now rewrite N.mul_1_l.
  rewrite !step0_crc. rewrite Nnat.Nat2N.inj_succ, N.pow_succ_r', <- N.mul_assoc, step0_even. apply IHn.
Qed.
Lemma crc_step0 : forall c (b : bool), crc_step c b = step0 (N.lxor c (N.b2n b)).
Proof.
  intros. unfold crc_step, step0. rewrite N.shiftr_lxor. replace (N.shiftr (N.b2n b) 1) with 0 by (destruct b; reflexivity).
  rewrite N.lxor_0_r. rewrite N.shiftr_div_pow2. f_equal. rewrite <- !N.bit0_odd, N.lxor_spec. replace (N.testbit (N.b2n b) 0) with b by (destruct b; reflexivity).
  reflexivity.
Qed.
Lemma fold_bits : forall n c y, crc_fold n (N.lxor c (y mod 2 ^ N.of_nat n)) = fold_left crc_step (map (fun i => N.testbit y (N.of_nat i)) (seq 0 n)) c.
Proof.
  induction n; intros.
  - cbn [seq map fold_left crc_fold]. change (2 ^ N.of_nat 0) with 1. now rewrite N.mod_1_r, N.lxor_0_r.
  - cbn [seq map fold_left crc_fold]. rewrite step0_crc, crc_step0.
    rewrite <- seq_shift, map_map.
    rewrite (map_ext (fun x => N.testbit y (N.of_nat (S x))) (fun x => N.testbit (N.div2 y) (N.of_nat x))).
    2: { intro a. rewrite Nnat.Nat2N.inj_succ, N.div2_spec, N.shiftr_spec'. now rewrite N.add_1_r. }
    rewrite <- IHn. f_equal.
    rewrite Nnat.Nat2N.inj_succ, N.pow_succ_r'. rewrite N.mod_mul_r by (try discriminate; apply N.pow_nonzero; discriminate).
    assert (y mod 2 = N.b2n (N.odd y)) as M. { rewrite <- N.bit0_odd, N.bit0_mod. destruct (N.testbit y 0) eqn:E; rewrite <- N.bit0_mod, ?E; reflexivity. }
    rewrite M, N.bit0_odd, <- N.div2_div.
    replace (N.b2n (N.odd y) + 2 * (N.div2 y mod 2 ^ N.of_nat n)) with (N.lxor (N.b2n (N.odd y)) (2 * (N.div2 y mod 2 ^ N.of_nat n))).
    + now rewrite <- N.lxor_assoc, step0_even.
    + rewrite N.add_nocarry_lxor; auto. apply N.bits_inj_0. intro i. rewrite N.land_spec. destruct (N.eq_dec i 0) as [-> |NZ].
      * rewrite N.testbit_even_0. apply andb_false_r.
      * replace (N.testbit (N.b2n (N.odd y)) i) with false; auto. destruct (N.odd y); cbn [N.b2n]; [|now rewrite N.bits_0].
        symmetry. apply N.bits_above_log2. cbn. lia.
Qed.
Lemma byte_crc : forall c o, o < 256 -> N.lxor (N.shiftr c 8) (crc_fold 8 (N.lxor (N.land c 255) o)) = fold_left crc_step (bits_of o) c.
Proof.
  intros c o H. pose proof (fold_bits 8 c o) as E. change (2 ^ N.of_nat 8) with 256 in E. rewrite N.mod_small in E by auto.
  change (map (fun i => N.testbit o (N.of_nat i)) (seq 0 8)) with (bits_of o) in E. rewrite <- E.
  rewrite N.lxor_comm. pose proof (fold_even 8 (N.lxor (N.land c 255) o) (N.shiftr c 8)) as X. rewrite <- X. f_equal.
  change (2 ^ N.of_nat 8) with (2 ^ 8). rewrite N.mul_comm, <- N.shiftl_mul_pow2. apply N.bits_inj. intro i. rewrite !N.lxor_spec, N.land_spec.
  change 255 with (N.ones 8). destruct (N.ltb_spec i 8).
  - rewrite N.shiftl_spec_low, N.ones_spec_low by auto. now rewrite andb_true_r, xorb_false_r.
  - rewrite N.shiftl_spec_high', N.shiftr_spec', N.ones_spec_high by auto. replace (i - 8 + 8) with i by lia. rewrite andb_false_r.
    destruct (N.testbit o i), (N.testbit c i); reflexivity.
Qed.
Lemma crc_same : forall l, bytes_ok l -> crc32 l = crc_iso l.
Proof.
  intros l H. unfold crc32, crc_iso. change U32_MAX with (2 ^ 32 - 1). f_equal. generalize (2 ^ 32 - 1). induction H; intro c; cbn [flat_map fold_left]; auto.
  rewrite fold_left_app, <- byte_crc by auto. apply IHForall.
Qed.
Lemma lxor_small : forall a b n, a < 2 ^ n -> b < 2 ^ n -> N.lxor a b < 2 ^ n.
Proof.
  intros a b n A B. assert (X : forall x, x < 2 ^ n <-> N.shiftr x n = 0).
  { intro x. rewrite N.shiftr_div_pow2. split. intro. now apply N.div_small. intro E. apply N.div_small_iff in E; auto. apply N.pow_nonzero. discriminate. }
  rewrite X in *. now rewrite N.shiftr_lxor, A, B.
Qed.
Lemma iso_small : forall l, crc_iso l < 2 ^ 32.
Proof.
  intro l. unfold crc_iso. apply lxor_small. reflexivity.
  assert (forall bs c, c < 2 ^ 32 -> fold_left crc_step bs c < 2 ^ 32).
  { induction bs as [|b bs IH]; intros c Hc; cbn [fold_left]; auto. apply IH. unfold crc_step. apply lxor_small.
    - apply N.le_lt_trans with c; auto. apply N.div_le_upper_bound; lia.
    - rewrite poly_value. destruct (xorb _ _); reflexivity. }
  apply H. reflexivity.
Qed.
Lemma coded_crc : forall l, bytes_ok l -> base128 (calculate_crc l) = crc_iso l /\ Forall (fun b => b < 128) (calculate_crc l) /\ lenN (calculate_crc l) = 5.
Proof.
  intros l H. unfold calculate_crc. rewrite crc_same by auto. pose proof (iso_small l) as S. set (n := crc_iso l) in *. clearbody n. cbn [map base128 fold_left].
  assert (M : forall s, N.land (N.shiftr n s) 127 = n / 2 ^ s mod 128). { intro s. change 127 with (N.ones 7). now rewrite N.land_ones, N.shiftr_div_pow2. }
  rewrite !M. split; [|split; [|reflexivity]].
  - unfold base128. cbn [fold_left]. change (2 ^ 28) with 268435456. change (2 ^ 21) with 2097152. change (2 ^ 14) with 16384. change (2 ^ 7) with 128. change (2 ^ 0) with 1.
    change (2 ^ 32) with 4294967296 in S. rewrite N.div_1_r.
    replace 268435456 with (128 * 128 * 128 * 128) by reflexivity. replace 2097152 with (128 * 128 * 128) by reflexivity. replace 16384 with (128 * 128) by reflexivity.
    rewrite <- !N.div_div by discriminate. set (a := n / 128). set (b := a / 128). set (c := b / 128). set (d := c / 128).
    pose proof (N.div_mod n 128 ltac:(discriminate)). pose proof (N.div_mod a 128 ltac:(discriminate)). pose proof (N.div_mod b 128 ltac:(discriminate)).
    pose proof (N.div_mod c 128 ltac:(discriminate)).
    assert (d < 128). { unfold d, c, b, a. rewrite !N.div_div by discriminate. apply N.div_lt_upper_bound; lia. }
    rewrite (N.mod_small d) by auto. fold a in H0. fold b in H1. fold c in H2. fold d in H3. lia.
  - repeat constructor; apply N.mod_lt; discriminate.
Qed.
Definition crc_place (tag : bytes) : bytes := takeN 6 (dropN 16 tag).
Lemma create_inv : forall w f l tag, l <> [] -> create_tag w f l = Ok tag -> exists fb info,
  write_frames w l = Ok fb /\ lenN info = 7 /\
  tag = $"ID3" ++ info ++ ext_header f (5 :: calculate_crc (dropN (if has_restr f then 25 else 22) ($"ID3" ++ info ++ ext_header f [0; 0; 0; 0; 0; 0] ++ fb))) ++ fb ++
    (if tf_footer f then $"3DI" ++ info else repeat 0 (N.to_nat (match w_padding w with Some n => n | None => 0 end))).
Proof.
  intros w f l tag NE E. unfold create_tag in E. destruct l as [|x l]; [congruence|]. destruct (write_frames w (x :: l)) as [fb| |]; cbn [bind] in E; try discriminate E.
  cbv zeta in E. destruct (_ <? _); try discriminate E. destruct (synch32 _); cbn [as_ferr bind] in E; try discriminate E.
  match type of E with context [$"ID3" ++ ?i ++ _] => set (info := i) in * end.
  destruct (_ && _); try discriminate E. exists fb, info. split; auto. split. { subst info. cbn [app]. rewrite !lenN_cons, be_enc_len. reflexivity. }
  injection E as <-. destruct (tf_footer f); rewrite <- !app_assoc; reflexivity.
Qed.
(** The checksum of a tag without restrictions or padding is that of its frames, which follow it. *)
Theorem C174_checksum : forall w f l tag, tf_crc f = true -> tf_restrictions f = None -> (tf_footer f = true \/ w_padding w = None) -> l <> [] ->
  create_tag w f l = Ok tag -> exists crc frames after,
  crc_place tag = 5 :: crc /\ dropN 22 tag = frames ++ after /\ write_frames w l = Ok frames /\ (after = [] \/ tf_footer f = true /\ lenN after = 10) /\
  (bytes_ok frames -> Forall (fun b => b < 128) crc /\ base128 crc = crc_iso frames).
Proof.
  intros w f l tag C R P NE E. destruct (create_inv w f l tag NE E) as (fb & info & Hw & Li & ->).
  unfold has_restr, ext_header. rewrite C, R. cbn [is_some orb]. unfold ext_len, has_restr. rewrite C, R. cbn [is_some orb].
  assert (D : dropN 22 ($"ID3" ++ info ++ (be_enc 4 (6 + 6 + 0) ++ [1; N.lor 32 0] ++ [0; 0; 0; 0; 0; 0] ++ []) ++ fb) = fb).
  { rewrite !app_assoc. apply dropN_app. rewrite !lenN_app, be_enc_len, Li. reflexivity. }
  rewrite D. eexists (calculate_crc fb), fb, _. split; [|split; [|split; [exact Hw|split]]].
  - unfold crc_place.
    assert (X : forall y, dropN 16 ($"ID3" ++ info ++ (be_enc 4 (6 + 6 + 0) ++ [1; N.lor 32 0] ++ (5 :: calculate_crc fb) ++ []) ++ y) = (5 :: calculate_crc fb) ++ y).
    { intro y. rewrite app_nil_r, <- (app_assoc (be_enc _ _)), <- (app_assoc [1; N.lor 32 0]). rewrite (app_assoc (be_enc _ _)), (app_assoc info), (app_assoc ($"ID3")).
      apply dropN_app. rewrite !lenN_app, be_enc_len, Li. reflexivity. }
    rewrite X. rewrite takeN_app; reflexivity.
  - assert (X : forall y, dropN 22 ($"ID3" ++ info ++ (be_enc 4 (6 + 6 + 0) ++ [1; N.lor 32 0] ++ (5 :: calculate_crc fb) ++ []) ++ y) = y).
    { intro y. rewrite !app_assoc. apply dropN_app. rewrite !lenN_app, be_enc_len, Li. reflexivity. }
    apply X.
  - destruct P as [-> | ->]. right. split; auto. rewrite lenN_app, Li. reflexivity. destruct (tf_footer f). right. split; auto. rewrite lenN_app, Li. reflexivity. left. reflexivity.
  - intro B. destruct (coded_crc fb B) as (A1 & A2 & _). auto.
Qed.
Print Assumptions C174_checksum.
Definition crc_flags (restr : option restrictions) (footer : bool) : tag_flags := mkTFlags false false footer true restr.
Definition no_restrictions : restrictions := restr_from_byte 0.
Example C174_ex :
  let frame := FText (new_header ($"TPE1")) UTF8 ($"Foo artist") in
  match create_tag (mkW false false false None) (crc_flags None false) [frame] with
  | Ok tag => crc_place tag = [5; 0x06; 0x35; 0x69; 0x7D; 0x14] /\ base128 [0x06; 0x35; 0x69; 0x7D; 0x14] = 0x66BA7E94 /\ crc_iso (dropN 22 tag) = 0x66BA7E94
  | _ => False
  end.
Proof. vm_compute. auto. Qed.
(** CRC-32 of the standard check string. *)
Example C174_check_ex : crc_iso ($"123456789") = 0xCBF43926. Proof. vm_compute. reflexivity. Qed.
(** With padding the checksum does not cover all that follows the extended header, as the standard asks. *)
Theorem C174_padding_refuted : ~ forall w f l tag, tf_crc f = true -> tf_restrictions f = None -> l <> [] -> create_tag w f l = Ok tag ->
  base128 (dropN 1 (crc_place tag)) = crc_iso (dropN 22 tag).
Proof.
  intro H. set (w := mkW false false false (Some 1)). set (f := crc_flags None false). set (l := [FBin (new_header ($"PCNT")) [1]]).
  assert (E : match create_tag w f l with Ok tag => base128 (dropN 1 (crc_place tag)) =? crc_iso (dropN 22 tag) | _ => true end = false) by (vm_compute; reflexivity).
  destruct (create_tag w f l) as [tag| |] eqn:T; try discriminate E. rewrite (H w f l tag) in E; auto; try discriminate. rewrite N.eqb_refl in E. discriminate E.
Qed.
Print Assumptions C174_padding_refuted.
(** With restrictions the first byte of the frames is left out of the checksum; without any bytes of frames writing panics. *)
Theorem C174_restrictions_refuted : forall w f l tag frames, tf_crc f = true -> tf_restrictions f <> None -> l <> [] ->
  write_frames w l = Ok frames -> bytes_ok frames ->
  create_tag w f l = Ok tag -> base128 (dropN 1 (crc_place tag)) = crc_iso (dropN 1 frames).
Proof.
  intros w f l tag frames C R NE W B E. destruct (create_inv w f l tag NE E) as (fb & info & Hw & Li & ->). rewrite Hw in W. injection W as ->.
  destruct (tf_restrictions f) as [r|] eqn:Er; [|congruence]. unfold has_restr, ext_header. rewrite C, Er. cbn [is_some orb]. unfold ext_len, has_restr. rewrite C, Er. cbn [is_some orb].
  assert (D : dropN 25 ($"ID3" ++ info ++ (be_enc 4 (6 + 6 + 2) ++ [1; N.lor 32 16] ++ [0; 0; 0; 0; 0; 0] ++ [1; restr_as_byte r]) ++ frames) = dropN 1 frames).
  { rewrite !app_assoc. change 25 with (24 + 1). rewrite <- dropN_dropN. f_equal. apply dropN_app. rewrite !lenN_app, be_enc_len, Li. reflexivity. }
  rewrite D. unfold crc_place.
  match goal with |- context [dropN 16 ($"ID3" ++ info ++ (?a ++ ?b ++ ?c ++ ?d) ++ ?y)] =>
    assert (X : dropN 16 ($"ID3" ++ info ++ (a ++ b ++ c ++ d) ++ y) = c ++ d ++ y) end.
  { rewrite <- (app_assoc (be_enc _ _)), <- (app_assoc [1; N.lor 32 16]), <- (app_assoc (5 :: _)). rewrite (app_assoc (be_enc _ _)), (app_assoc info), (app_assoc ($"ID3")).
    apply dropN_app. rewrite !lenN_app, be_enc_len, Li. reflexivity. }
  rewrite X. rewrite takeN_app by reflexivity. change (dropN 1 (5 :: calculate_crc (dropN 1 frames))) with (calculate_crc (dropN 1 frames)).
  apply coded_crc. unfold dropN. rewrite <- (firstn_skipn (N.to_nat 1) frames) in B. apply Forall_app in B. apply B.
Qed.
Print Assumptions C174_restrictions_refuted.
Example C174_restrictions_ex :
  let l := [FBin (new_header ($"PCNT")) [1]] in let w := mkW false false false None in
  exists tag frames, create_tag w (crc_flags (Some no_restrictions) false) l = Ok tag /\ write_frames w l = Ok frames /\
  base128 (dropN 1 (crc_place tag)) = crc_iso (dropN 1 frames) /\ crc_iso (dropN 1 frames) <> crc_iso frames.
Proof.
  set (w := mkW false false false None). cbv zeta. set (l := [FBin (new_header ($"PCNT")) [1]]). set (f := crc_flags (Some no_restrictions) false).
  assert (E : match create_tag w f l, write_frames w l with
              | Ok tag, Ok fr => (base128 (dropN 1 (crc_place tag)) =? crc_iso (dropN 1 fr)) && negb (crc_iso (dropN 1 fr) =? crc_iso fr) | _, _ => false end = true)
    by (vm_compute; reflexivity).
  destruct (create_tag w f l) as [tag| |], (write_frames w l) as [fr| |]; try discriminate E. exists tag, fr. split; auto. split; auto.
  apply andb_true_iff in E as [E1 E2]. apply negb_true_iff in E2. split. now apply N.eqb_eq. now apply N.eqb_neq.
Qed.
Theorem C174_panic_refuted : forall w f l, tf_crc f = true -> tf_restrictions f <> None -> Forall (fun g => is_valid_id (f_id g) = false) l -> l <> [] ->
  w_padding w = None -> create_tag w f l = Panic.
Proof.
  intros w f l C R F NE P. unfold create_tag. destruct l as [|x l]; [congruence|].
  assert (write_frames w (x :: l) = Ok []) as ->.
  { unfold write_frames, items.
    assert (X : forall l, Forall (fun g => is_valid_id (f_id g) = false) l -> items24 (frame_bytes w) w false l = Ok [] /\ items23 (frame_bytes w) w false None l = Ok []).
    { induction l0 as [|g l0 IH]; intro G; [split; reflexivity|]. apply Forall_cons_iff in G as [G1 G]. cbn [items24 items23]. rewrite G1. cbn [negb]. auto. }
    destruct (X _ F). destruct (w_v23 w); auto. }
  cbn [bind]. rewrite P. replace (if tf_footer f then 0 else 0) with 0 by (destruct (tf_footer f); reflexivity). cbv zeta.
  destruct (tf_restrictions f) as [r|] eqn:Er; [|congruence]. unfold ext_len, ext_header, ext_len, has_restr. rewrite C, Er. cbn [is_some orb].
  change (lenN [] + 0) with 0. change (0 mod 2 ^ 32) with 0. change (U32_MAX <? 6 + 6 + 2 + 0) with false. cbv iota.
  assert (exists s, synch32 (6 + 6 + 2 + 0) = Ok s) as (s & ->) by (vm_compute; eauto). cbn [as_ferr bind andb].
  match goal with |- context [lenN ?x <? 25] => assert (lenN x = 24) as -> end; auto.
Qed.
Print Assumptions C174_panic_refuted.
Example C174_panic_ex :
  create_tag (mkW false false false None) (crc_flags (Some no_restrictions) false) [FText (mkFH (Outdated ($"TSI")) ff_default) Latin1 ($"9")] = Panic.
Proof. vm_compute. reflexivity. Qed.

(** ** C175: volume adjustments. *)
Theorem C175_ones : forall b n, b < 256 -> (leading_ones b = n <-> ones b n).
Proof.
  intros b n Hb.
  assert (A : forall b, b < 256 -> ones b (leading_ones b)).
  { clear. intros b H.
    assert (T : forallb (fun b => let k := leading_ones b in (k <=? 8) && forallb (fun i => (k <=? i) || N.testbit b (7 - i)) [0; 1; 2; 3; 4; 5; 6; 7]
       && ((8 <=? k) || negb (N.testbit b (7 - k)))) (map N.of_nat (seq 0 256)) = true) by (vm_compute; reflexivity).
    rewrite forallb_forall in T. specialize (T b).
    assert (I : In b (map N.of_nat (seq 0 256))). { apply in_map_iff. exists (N.to_nat b). split. apply Nnat.N2Nat.id. apply in_seq. lia. }
    specialize (T I). cbv zeta in T. rewrite !andb_true_iff in T. destruct T as ((T1 & T2) & T3). split. lia. split.
    - intros i Hi. rewrite forallb_forall in T2. assert (J : In i [0; 1; 2; 3; 4; 5; 6; 7]) by (cbn [In]; lia).
      specialize (T2 i J). apply orb_true_iff in T2 as [X|X]; auto. lia.
    - intro K. apply orb_true_iff in T3 as [X|X]; [lia|]. now destruct (N.testbit b (7 - leading_ones b)). }
  split. intros <-. auto.
  intros (N1 & N2 & N3). destruct (A b Hb) as (M1 & M2 & M3). set (k := leading_ones b) in *. clearbody k.
  destruct (N.lt_trichotomy k n) as [L|[L|L]]; auto.
  - rewrite N2 in M3 by auto. assert (k < 8) by lia. now specialize (M3 H).
  - rewrite M2 in N3 by auto. assert (n < 8) by lia. now specialize (N3 H).
Qed.
Print Assumptions C175_ones.
Example C175_ones_ex : ones 254 7 /\ leading_ones 254 = 7 /\ ones 0x5F 0. Proof. rewrite <- !C175_ones by reflexivity. auto. Qed.
(** The size in bits of a peak that is longer than stated is taken to be the number of ones its bytes begin with. *)
Theorem C175_bits : forall c p, ch_peak c = Some p -> (ch_bits c + 7) / 8 < lenN p -> bytes_ok p ->
  forall ns, Forall2 ones (takeN 32 p) ns ->
  ch_bytes c = if 255 <? sumN ns then Panic else Ok (ch_type c :: be_enc 2 (ch_adjust c) ++ sumN ns :: takeN 32 p).
Proof.
  intros c p Hp L B ns F. unfold ch_bytes. rewrite Hp. destruct (N.ltb_spec ((ch_bits c + 7) / 8) (lenN p)); [|lia]. cbv zeta.
  assert (map leading_ones (takeN 32 p) = ns) as ->.
  { assert (B' : bytes_ok (takeN 32 p)). { unfold takeN. rewrite <- (firstn_skipn (N.to_nat 32) p) in B. apply Forall_app in B. apply B. }
    clear - F B'. induction F; cbn [map]; auto. apply Forall_cons_iff in B' as [B1 B2]. f_equal; auto. now apply C175_ones. }
  destruct (_ <? _); reflexivity.
Qed.
Print Assumptions C175_bits.
(** So that what is written cannot be read back as it was, or not be written at all. *)
Theorem C175_peak_refuted : ~ forall w i c p b, ch_peak c = Some p -> lenN p <= 32 -> rva2_bytes w i [c] = Ok b ->
  exists bits, parse_rva2 (new_header ($"RVA2")) Strict b = Ok (Some (FRva2 (new_header ($"RVA2")) i [mkCh (ch_type c) (ch_adjust c) bits (Some p)]), []).
Proof.
  intro H. assert (L : lenN [0; 5] <= 32) by (vm_compute; discriminate).
  specialize (H (mkW false false false None) ($"a") (mkCh 1 512 8 (Some [0; 5])) [0; 5] ($"a" ++ [0; 1; 2; 0; 0; 0; 5]) eq_refl L eq_refl). destruct H as (bits & H). vm_compute in H. discriminate H.
Qed.
Print Assumptions C175_peak_refuted.
Theorem C175_panic_refuted : forall w i t a bits, terminated_ok Latin1 i -> bits < 249 -> rva2_bytes w i [mkCh t a bits (Some (repeat 255 32))] = Panic.
Proof.
  intros w i t a bits Hi Hb. unfold rva2_bytes. destruct (rt_latin w i [] Hi) as (n & -> & _). cbn [bind concat_res].
  rewrite (C175_bits _ (repeat 255 32)) with (ns := repeat 8 32); auto.
  - cbn [ch_bits]. change (lenN (repeat 255 32)) with 32. apply N.div_lt_upper_bound; lia.
  - apply Forall_forall. intros x I. apply repeat_spec in I. subst. reflexivity.
  - change (takeN 32 (repeat 255 32)) with (repeat 255 32). cbn [repeat]. repeat (constructor; [apply C175_ones; reflexivity|]). constructor.
Qed.
Print Assumptions C175_panic_refuted.
(** With the sizes right, adjustments are read back. *)
Theorem C175_channels_partial : forall w h m i l, terminated_ok Latin1 i -> Forall channel_ok l -> NoDup (map ch_type l) ->
  exists b, rva2_bytes w i l = Ok b /\ parse_rva2 h m b = Ok (Some (FRva2 h i l), []).
Proof. intros. now apply rt_rva2. Qed.
Print Assumptions C175_channels_partial.
Example C175_ex :
  let l := [mkCh 1 0xFE00 16 (Some [0x80; 1]); mkCh 2 5 0 None] in
  exists b, rva2_bytes (mkW false false false None) ($"a") l = Ok b /\ b = $"a" ++ [0; 1; 0xFE; 0; 16; 0x80; 1; 2; 0; 5; 0] /\
  parse_rva2 (new_header ($"RVA2")) Strict b = Ok (Some (FRva2 (new_header ($"RVA2")) ($"a") l), []).
Proof. eexists. vm_compute. auto. Qed.
