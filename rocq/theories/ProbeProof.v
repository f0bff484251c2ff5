(** The type of a file by its first bytes; tags and junk before it. *)
From Verif Require Import BaseLemmas StrLemmas Id3v2HeaderProof MpegProof2 MpegProof5.
From Verif Require Export Base Str TagType SynchModel MpegModel ProbeModel ProbeSpec.

Lemma list4 : forall A (l : list A), lenN l = 4 -> exists a b c d, l = [a; b; c; d].
Proof. intros A l H. unfold lenN in H. do 4 (destruct l as [|? l]; [cbn in H; lia|]). destruct l; [eauto|cbn in H; lia]. Qed.
Lemma firstn_min : forall A n (l : list A), lenN (firstn n l) <= lenN l.
Proof. intros. unfold lenN. rewrite firstn_length. lia. Qed.
Ltac len_true k := match goal with |- context [k <=? lenN ?l] => replace (k <=? lenN l) with true by (symmetry; apply N.leb_le; unfold lenN; cbn [length]; lia) end.
Ltac qk := unfold quick_type_guess, starts_with, slice; repeat (cbv [N.eqb Pos.eqb andb]; fold andb).

(** The tests of the first bytes, one after the other *)
Lemma quick_wav : forall a b c d r, quick_type_guess ($"RIFF" ++ [a; b; c; d] ++ $"WAVE" ++ r) = Some FWav.
Proof. intros. cbn [of_string app]. unfold quick_type_guess. cbn [N_of_ascii N.eqb Pos.eqb andb]. len_true 12. reflexivity. Qed.
Lemma quick_aiff : forall a b c d r, quick_type_guess ($"FORM" ++ [a; b; c; d] ++ $"AIFF" ++ r) = Some FAiff.
Proof. intros. cbn [of_string app]. unfold quick_type_guess. cbn [N_of_ascii N.eqb Pos.eqb andb]. len_true 12. reflexivity. Qed.
Lemma quick_aifc : forall a b c d r, quick_type_guess ($"FORM" ++ [a; b; c; d] ++ $"AIFC" ++ r) = Some FAiff.
Proof. intros. cbn [of_string app]. unfold quick_type_guess. cbn [N_of_ascii N.eqb Pos.eqb andb]. len_true 12. reflexivity. Qed.
Lemma starts_true : forall p r, starts_with p (p ++ r) = true.
Proof. intros. unfold starts_with. rewrite takeN_app by auto. rewrite list_eqb_refl, lenN_app. cbn [andb]. lia. Qed.
Lemma quick_flac : forall r, quick_type_guess ($"fLaC" ++ r) = Some FFlac.
Proof. intros. unfold quick_type_guess. rewrite starts_true. reflexivity. Qed.
Lemma quick_ape : forall r, quick_type_guess ($"MAC" ++ r) = Some FApe.
Proof. intros. unfold quick_type_guess. rewrite starts_true. reflexivity. Qed.
Lemma quick_wavpack : forall r, quick_type_guess ($"wvpk" ++ r) = Some FWavPack.
Proof. intros. cbn [of_string app]. unfold quick_type_guess. cbn [N_of_ascii N.eqb Pos.eqb andb]. len_true 4. reflexivity. Qed.
Lemma quick_mpc8 : forall k l r, 65 <= k <= 90 -> quick_type_guess ($"MPCK" ++ [k; l] ++ r) = Some FMpc.
Proof.
  intros k l r H. unfold quick_type_guess. rewrite (starts_true ($"MPCK")). cbn [orb].
  replace (list_eqb (slice 4 8 ($"MPCK" ++ [k; l] ++ r)) ($"ftyp")) with false. { rewrite andb_false_r. reflexivity. }
  symmetry. apply list_eqb_neq. intros E. assert (k = 102). { change (slice 4 8 ($"MPCK" ++ [k; l] ++ r)) with (k :: takeN 3 ([l] ++ r)) in E. injection E as E _. exact E. } lia.
Qed.
Lemma quick_mpc7 : forall v n r, n < 2 ^ 30 -> quick_type_guess ($"MP+" ++ [v] ++ le_enc 4 n ++ r) = Some FMpc.
Proof.
  intros v n r H. unfold quick_type_guess. rewrite (starts_true ($"MP+")), orb_true_r.
  replace (list_eqb (slice 4 8 ($"MP+" ++ [v] ++ le_enc 4 n ++ r)) ($"ftyp")) with false. { rewrite andb_false_r. reflexivity. }
  symmetry. apply list_eqb_neq. intros E.
  assert (n / 256 / 256 / 256 mod 256 = 112). { unfold slice in E. change (dropN 4 ($"MP+" ++ [v] ++ le_enc 4 n ++ r)) with (le_enc 4 n ++ r) in E. rewrite takeN_app in E by reflexivity. cbn [le_enc] in E. injection E as _ _ _ E. exact E. }
  lia.
Qed.
Lemma be4 : forall n, n < 2 ^ 32 -> be_enc 4 n = [n / 2 ^ 24; n / 2 ^ 16 mod 256; n / 2 ^ 8 mod 256; n mod 256].
Proof. intros n H. unfold be_enc. cbn [le_enc rev app]. rewrite !N.div_div by lia. rewrite (N.mod_small (n / (256 * 256 * 256))). reflexivity. apply N.div_lt_upper_bound; lia. Qed.
Lemma quick_mp4 : forall n r, n < 2 ^ 30 -> quick_type_guess (be_enc 4 n ++ $"ftyp" ++ r) = Some FMp4.
Proof.
  intros n r H. rewrite be4 by lia. cbn [app]. unfold quick_type_guess.
  set (b := n / 2 ^ 24). assert (B : b < 64) by (unfold b; lia).
  replace (b =? 77) with false by lia. replace (b =? 255) with false by lia. replace (b =? 70) with false by lia. replace (b =? 79) with false by lia. replace (b =? 102) with false by lia.
  replace (b =? 82) with false by lia. replace (b =? 119) with false by lia. cbn [andb].
  replace (8 <=? lenN (b :: n / 2 ^ 16 mod 256 :: n / 2 ^ 8 mod 256 :: n mod 256 :: $"ftyp" ++ r)) with true by (symmetry; apply N.leb_le; unfold lenN; cbn [length of_string app]; lia).
  reflexivity.
Qed.
Lemma quick_mpeg : forall v l p r, v < 4 -> 1 <= l < 4 -> p < 2 -> quick_type_guess ([0xFF; 0xE0 + v * 8 + l * 2 + p] ++ r) = Some FMpeg.
Proof.
  intros v l p r Hv Hl Hp. cbn [app]. unfold quick_type_guess. len_true 2. cbn [nth].
  assert (Cv : v = 0 \/ v = 1 \/ v = 2 \/ v = 3) by lia. assert (Cl : l = 1 \/ l = 2 \/ l = 3) by lia. assert (Cp : p = 0 \/ p = 1) by lia.
  destruct Cv as [->|[->|[->| ->]]]; destruct Cl as [->|[->| ->]]; destruct Cp as [->| ->]; reflexivity.
Qed.
Lemma quick_aac : forall v p r, v < 2 -> p < 2 -> quick_type_guess ([0xFF; 0xF0 + v * 8 + p] ++ r) = Some FAac.
Proof.
  intros v p r Hv Hp. cbn [app]. unfold quick_type_guess. len_true 2. cbn [nth].
  assert (Cv : v = 0 \/ v = 1) by lia. assert (Cp : p = 0 \/ p = 1) by lia.
  destruct Cv as [->| ->]; destruct Cp as [->| ->]; reflexivity.
Qed.
Lemma list22 : forall A (l : list A), lenN l = 22 -> exists a b c d e f g h i j k a' b' c' d' e' f' g' h' i' j' k', l = [a; b; c; d; e; f; g; h; i; j; k; a'; b'; c'; d'; e'; f'; g'; h'; i'; j'; k'].
Proof. intros A l H. unfold lenN in H. do 22 (destruct l as [|? l]; [cbn in H; lia|]). destruct l; [repeat eexists|cbn in H; lia]. Qed.
Lemma quick_ogg : forall h p t, lenN h = 22 -> 8 <= lenN p ->
  quick_type_guess (ogg_page h p ++ t) =
    if list_eqb (takeN 6 (dropN 1 p)) ($"vorbis") then Some FVorbis else if list_eqb (takeN 8 p) ($"OpusHead") then Some FOpus else if list_eqb (takeN 8 p) ($"Speex   ") then Some FSpeex else None.
Proof.
  intros h p t H L. unfold quick_type_guess, ogg_page. set (d := ($"OggS" ++ h ++ [1] ++ [lenN p] ++ p) ++ t).
  assert (E : d = 79 :: 103 :: 103 :: 83 :: (h ++ [1; lenN p]) ++ p ++ t). { unfold d. now rewrite <- !app_assoc. }
  assert (LD : 36 <= lenN d). { rewrite E, !lenN_cons, !lenN_app. change (lenN [1; lenN p]) with 2. lia. }
  assert (D4 : dropN 28 d = p ++ t). { rewrite E. change (dropN 28 (79 :: 103 :: 103 :: 83 :: (h ++ [1; lenN p]) ++ p ++ t)) with (dropN 24 ((h ++ [1; lenN p]) ++ p ++ t)). apply dropN_app. rewrite lenN_app, H. reflexivity. }
  assert (S1 : slice 29 35 d = takeN 6 (dropN 1 p)). { unfold slice. change 29 with (28 + 1). rewrite <- dropN_dropN, D4. rewrite dropN_app_le by lia. change (35 - (28 + 1)) with 6. apply takeN_app_le. rewrite lenN_dropN. lia. }
  assert (S2 : slice 28 36 d = takeN 8 p). { unfold slice. rewrite D4. change (36 - 28) with 8. apply takeN_app_le. lia. }
  rewrite S1, S2. assert (H0 : slice 0 4 d = $"OggS"). { rewrite E. reflexivity. } rewrite H0. rewrite E at 1. replace (36 <=? lenN d) with true by lia. reflexivity.
Qed.
Lemma quick_begins : forall f d, begins f d -> quick_type_guess d = Some f.
Proof.
  intros f d H. destruct H.
  - apply list4 in H as (a & b & c & e & ->). apply quick_wav.
  - apply list4 in H as (a & b & c & e & ->). apply quick_aiff.
  - apply list4 in H as (a & b & c & e & ->). apply quick_aifc.
  - apply quick_flac.
  - apply quick_wavpack.
  - apply quick_ape.
  - now apply quick_mpc8.
  - now apply quick_mpc7.
  - now apply quick_mp4.
  - rewrite quick_ogg; auto. rewrite !lenN_app. change (lenN [1]) with 1. change (lenN ($"vorbis")) with 6. lia.
  - rewrite quick_ogg; auto. rewrite !lenN_app. change (lenN ($"OpusHead")) with 8. lia.
  - rewrite quick_ogg; auto. rewrite !lenN_app. change (lenN ($"Speex   ")) with 8. lia.
  - now apply quick_mpeg.
  - now apply quick_aac.
Qed.
(** Only the first 36 bytes count. *)
Lemma slice_take : forall a b d, b <= 36 -> slice a b (takeN 36 d) = slice a b d.
Proof.
  intros a b d H. unfold slice, takeN, dropN. rewrite skipn_firstn_comm, firstn_firstn. f_equal. lia.
Qed.
Lemma len_take : forall k (d : bytes), k <= 36 -> (k <=? lenN (takeN 36 d)) = (k <=? lenN d).
Proof. intros k d H. rewrite lenN_takeN. destruct (N.leb_spec k (lenN d)); lia. Qed.
Lemma starts_take : forall p d, lenN p <= 36 -> starts_with p (takeN 36 d) = starts_with p d.
Proof. intros p d H. unfold starts_with. rewrite len_take by auto. f_equal. f_equal. unfold takeN. rewrite firstn_firstn. f_equal. lia. Qed.
Lemma quick_take : forall d, quick_type_guess (takeN 36 d) = quick_type_guess d.
Proof.
  intros [|b d]; [reflexivity|]. change (takeN 36 (b :: d)) with (b :: takeN 35 d). unfold quick_type_guess. change (b :: takeN 35 d) with (takeN 36 (b :: d)).
  rewrite !starts_take by (vm_compute; discriminate). rewrite !slice_take by lia. rewrite !len_take by lia.
  replace (nth 1 (takeN 36 (b :: d)) 0) with (nth 1 (b :: d) 0) by (destruct d; reflexivity). reflexivity.
Qed.

(** ** The search for a frame sync *)
Lemma kind_eq : forall b, b < 256 -> (if negb (N.land b 0x10 =? 0) && (N.land b 6 =? 0) then FAac else FMpeg) = kind_of b.
Proof.
  intros b B. unfold kind_of.
  assert (A : forallb (fun n => Bool.eqb (negb (N.land n 0x10 =? 0) && (N.land n 6 =? 0)) ((n / 16 mod 2 =? 1) && (n / 2 mod 4 =? 0))) (map N.of_nat (seq 0 256)) = true) by (vm_compute; reflexivity).
  rewrite forallb_forall in A. specialize (A b). assert (I : In b (map N.of_nat (seq 0 256))). { apply in_map_iff. exists (N.to_nat b). split; [lia|]. apply in_seq. lia. }
  apply A in I. apply Bool.eqb_prop in I. now rewrite I.
Qed.
Lemma sync_pair_at : forall r i, sync_at r i <-> exists b, sync_pair r i b.
Proof.
  intros r i. split.
  - intros (a & b & t & E & -> & H). exists b. split; [|exact H]. exists (takeN i r), t. rewrite <- E. split. { symmetry. apply takeN_dropN. }
    rewrite lenN_takeN. assert (X : 2 <= lenN (dropN i r)) by (rewrite E; unfold lenN; cbn [length]; lia). rewrite lenN_dropN in X. lia.
  - intros (b & (p & q & -> & L) & H). exists 255, b, q. rewrite dropN_app by auto. auto.
Qed.
Lemma pair_take : forall n r i a b, pair_at (takeN n r) i a b <-> pair_at r i a b /\ i + 2 <= n.
Proof.
  intros n r i a b. split.
  - intros (p & q & E & L). split.
    + exists p, (q ++ dropN n r). split; auto. rewrite <- (takeN_dropN _ n r) at 1. rewrite E, <- app_assoc. reflexivity.
    + assert (X : lenN (takeN n r) = lenN p + 2 + lenN q) by (rewrite E, lenN_app, !lenN_cons; lia). rewrite lenN_takeN in X. lia.
  - intros [(p & q & -> & L) H]. exists p, (takeN (n - i - 2) q). split; auto. rewrite takeN_app_ge by lia. f_equal. rewrite L. unfold takeN. replace (N.to_nat (n - i)) with (S (S (N.to_nat (n - i - 2)))) by lia. reflexivity.
Qed.
Lemma pair_byte : forall r i a b, bytes_ok r -> pair_at r i a b -> b < 256.
Proof. intros r i a b H (p & q & -> & _). apply Forall_app in H as [_ H]. apply Forall_cons_iff in H as [_ H]. now apply Forall_cons_iff in H as [H _]. Qed.
(** What the search finds: the first sync in the window *)
Definition found (junk : N) (r : bytes) (f : option ftype) : Prop :=
  match f with
  | Some f => exists i b, sync_pair r i b /\ i + 2 <= junk /\ (forall j b', j < i -> ~ sync_pair r j b') /\ f = kind_of b
  | None => forall i b, sync_pair r i b -> junk < i + 2
  end.
Lemma check_found : forall junk u, bytes_ok (rest u) -> exists f p, check_mpeg_or_aac junk u = (f, to u p) /\ found junk (rest u) f.
Proof.
  intros junk u OK. unfold check_mpeg_or_aac. assert (OKW : bytes_ok (takeN junk (rest u))) by (apply Forall_takeN; exact OK).
  pose proof (search_spec _ OKW) as H. destruct (search_for_frame_sync (takeN junk (rest u))) as [i|].
  - destruct H as [H F]. apply sync_pair_at in H as (b & P & GE). apply pair_take in P as [P L]. eexists _, _. split; [reflexivity|].
    exists i, b. split; [split; auto|]. split; [exact L|]. split.
    + intros j b' J [P' GE']. apply (F j J). apply sync_pair_at. exists b'. split; auto. apply pair_take. split; auto. lia.
    + assert (B : b < 256) by exact (pair_byte _ _ _ _ OK P). destruct P as (p & q & E & LP). rewrite E. rewrite dropN_app by auto. cbn [nth]. now apply kind_eq.
  - eexists _, _. split; [reflexivity|]. intros i b [P GE]. destruct (N.ltb_spec junk (i + 2)) as [X|X]; auto. exfalso. apply (H i). apply sync_pair_at. exists b. split; auto. apply pair_take. auto.
Qed.
Lemma found_first : forall junk b r f, 2 <= junk -> 0xE0 <= b -> found junk (0xFF :: b :: r) f -> f = Some (kind_of b).
Proof.
  intros junk b r f J B H. assert (P : sync_pair (0xFF :: b :: r) 0 b). { split; [|exact B]. exists [], r. auto. }
  destruct f as [f|]; cbn [found] in H.
  - destruct H as (i & c & [(p & q & E & L) GE] & _ & F & ->). destruct (N.eq_dec i 0) as [->|NZ].
    + destruct p; [|unfold lenN in L; cbn in L; lia]. injection E as -> _. reflexivity.
    + exfalso. apply (F 0 b); [lia|exact P].
  - specialize (H 0 b P). lia.
Qed.

(** ** Guessing *)
Lemma unclaimed_find : forall g buf, unclaimed g buf -> (if rg_use g then find (fun e => match rs_guess (snd e) buf with Some _ => true | None => false end) (rg_map g) else None) = None.
Proof.
  intros g buf [H|H]; [now rewrite H|]. destruct (rg_use g); auto. induction H as [|e l H _ IH]; [reflexivity|]. cbn [find]. now rewrite H.
Qed.
Lemma to_self : forall u, to u (u_pos u) = u.
Proof. now intros []. Qed.
Lemma to_to : forall u p q, to (to u p) q = to u q.
Proof. now intros []. Qed.
Lemma begins_buffer : forall f d, begins f d -> from_buffer_inner (takeN 36 d) = Some (Determined f).
Proof.
  intros f d H. pose proof (quick_begins _ _ H) as Q. rewrite <- quick_take in Q. unfold from_buffer_inner. rewrite Q. destruct (takeN 36 d); [discriminate Q|reflexivity].
Qed.
Lemma guess_total : forall g junk u, exists f, guess_inner g junk u = Ok (f, u).
Proof.
  intros g junk u. unfold guess_inner. destruct (if rg_use g then _ else None) as [[n r]|]; [eauto|].
  destruct (from_buffer_inner _) as [[f|size|]|] eqn:E; eauto.
  - assert (S : size < 2 ^ 28). { unfold from_buffer_inner in E. destruct (takeN 36 (rest u)); [discriminate|]. destruct (quick_type_guess _); [discriminate|]. destruct (_ && _); [|discriminate]. injection E as <-. apply unsynch32_bound. }
    replace (2 ^ 32 <=? 10 + size) with false by lia.
    match goal with |- context [let (f, u0) := ?X in _] => destruct X as [f u'] eqn:EX end. exists f. f_equal. f_equal.
    assert (D : u_data u' = u_data u).
    { revert EX. repeat match goal with |- context [if ?b then _ else _] => destruct b end; try (injection 1 as _ <-; reflexivity). unfold check_mpeg_or_aac. destruct (search_for_frame_sync _); injection 1 as _ <-; reflexivity. }
    unfold to. rewrite D. now destruct u.
  - destruct (check_mpeg_or_aac junk u) as [f u'] eqn:EX. exists f. f_equal. f_equal. assert (D : u_data u' = u_data u) by (revert EX; unfold check_mpeg_or_aac; destruct (search_for_frame_sync _); injection 1 as _ <-; reflexivity).
    unfold to. rewrite D. now destruct u.
Qed.

(** ** Behind an ID3v2 tag *)
Lemma seven_unsynch : forall n, n < 2 ^ 28 -> unsynch32 (be_dec (seven n)) = n.
Proof.
  intros n H. unfold seven, be_dec. cbn [rev app le_dec].
  replace (_ + 256 * _) with (n mod 2 ^ 7 + 256 * (n / 2 ^ 7 mod 2 ^ 7) + 65536 * (n / 2 ^ 14 mod 2 ^ 7) + 16777216 * (n / 2 ^ 21)) by lia.
  rewrite SynchProof.unsynch32_body by lia. lia.
Qed.
Lemma quick_73 : forall l, quick_type_guess (73 :: l) = if (8 <=? lenN (73 :: l)) && list_eqb (slice 4 8 (73 :: l)) ($"ftyp") then Some FMp4 else None.
Proof. reflexivity. Qed.
Lemma id3_buffer : forall d x, id3_ok d -> from_buffer_inner (takeN 36 (id3_bytes d ++ x)) = Some (PrecededById3 (lenN (d_content d))).
Proof.
  intros d x (_ & R & _ & L & _). set (t := id3_bytes d ++ x).
  assert (ET : t = 73 :: 68 :: 51 :: d_version d :: d_revision d :: d_flags d :: seven (lenN (d_content d)) ++ (d_content d ++ footer d) ++ x).
  { unfold t, id3_bytes. rewrite <- !app_assoc. reflexivity. }
  assert (Q : quick_type_guess t = None).
  { rewrite ET, quick_73. replace (list_eqb (slice 4 8 _) ($"ftyp")) with false; [now rewrite andb_false_r|].
    symmetry. apply list_eqb_neq. rewrite R. intros E. change (0 :: takeN 3 (d_flags d :: seven (lenN (d_content d)) ++ (d_content d ++ footer d) ++ x) = $"ftyp") in E. discriminate E. }
  assert (L10 : 10 <= lenN t). { rewrite ET, !lenN_cons, !lenN_app. change (lenN (seven (lenN (d_content d)))) with 4. lia. }
  unfold from_buffer_inner. rewrite quick_take, Q, len_take, !slice_take by lia. replace (10 <=? lenN t) with true by lia.
  assert (S0 : slice 0 3 t = $"ID3") by (rewrite ET; reflexivity). assert (S6 : slice 6 10 t = seven (lenN (d_content d))) by (rewrite ET; reflexivity).
  rewrite S0, S6, seven_unsynch by auto. rewrite ET. reflexivity.
Qed.
Lemma behind_pos : forall u d x, rest u = id3_bytes d ++ x -> rest (to u (u_pos u + (10 + lenN (d_content d)))) = footer d ++ x.
Proof.
  intros u d x E. unfold rest, to in *. cbn [u_data u_pos]. rewrite <- dropN_dropN, E. unfold id3_bytes. rewrite <- !app_assoc.
  replace ($"ID3" ++ [d_version d; d_revision d; d_flags d] ++ seven (lenN (d_content d)) ++ d_content d ++ footer d ++ x) with
    (($"ID3" ++ [d_version d; d_revision d; d_flags d] ++ seven (lenN (d_content d)) ++ d_content d) ++ footer d ++ x) by now rewrite <- !app_assoc.
  apply dropN_app. rewrite !lenN_app. change (lenN (seven (lenN (d_content d)))) with 4. change (lenN [d_version d; d_revision d; d_flags d]) with 3. change (lenN ($"ID3")) with 3. lia.
Qed.
(** What is guessed from the bytes behind the tag *)
Definition behind_ok (junk : N) (x : bytes) (f : option ftype) : Prop :=
  (exists r, x = $"MAC" ++ r /\ f = Some FApe) \/ (exists r, x = $"fLaC" ++ r /\ f = Some FFlac) \/
  (exists r, (x = $"MPCK" ++ r \/ x = $"MP+" ++ r) /\ f = Some FMpc) \/
  ((forall r, x <> $"MAC" ++ r /\ x <> $"fLaC" ++ r /\ x <> $"MPCK" ++ r /\ x <> $"MP+" ++ r) /\ found junk x f).
Lemma pad4 : forall x, takeN 4 x ++ repeat 0 (4 - length (takeN 4 x)) = takeN 4 (x ++ [0; 0; 0; 0]).
Proof. intros [|a [|b [|c [|d x]]]]; reflexivity. Qed.
Lemma pad_prefix : forall k (p x : bytes), lenN p = k -> k <= 4 -> Forall (fun c => c <> 0) p -> takeN k (x ++ [0; 0; 0; 0]) = p -> exists r, x = p ++ r.
Proof.
  intros k p x L K NZ E. destruct (N.leb_spec k (lenN x)) as [G|G].
  - rewrite takeN_app_le in E by auto. exists (dropN k x). rewrite <- E. symmetry. apply takeN_dropN.
  - exfalso. rewrite takeN_app_ge in E by lia. assert (I : In 0 p). { rewrite <- E. apply in_app_iff. right. replace (k - lenN x) with (1 + (k - lenN x - 1)) by lia. unfold takeN. rewrite N2Nat.inj_add. change (N.to_nat 1) with 1%nat. cbn [Nat.add firstn]. now left. }
    rewrite Forall_forall in NZ. now apply (NZ 0 I).
Qed.
Lemma take_take : forall A n m (l : list A), n <= m -> takeN n (takeN m l) = takeN n l.
Proof. intros. unfold takeN. rewrite firstn_firstn. f_equal. lia. Qed.
Lemma guess_behind : forall g junk u d x, id3_ok d -> rest u = id3_bytes d ++ x -> bytes_ok x -> unclaimed g (takeN 36 (rest u)) ->
  exists f, guess_inner g junk u = Ok (f, u) /\ behind_ok junk (footer d ++ x) f.
Proof.
  intros g junk u d x D E OK UN. destruct (guess_total g junk u) as (f & G). exists f. split; [exact G|]. revert G. unfold guess_inner. rewrite (unclaimed_find _ _ UN), E, id3_buffer by auto.
  assert (L : lenN (d_content d) < 2 ^ 28) by (destruct D as (_ & _ & _ & L & _); exact L). replace (2 ^ 32 <=? 10 + lenN (d_content d)) with false by lia.
  set (u' := to u (u_pos u + (10 + lenN (d_content d)))). assert (RU : rest u' = footer d ++ x) by (apply behind_pos; auto). rewrite RU, pad4. set (y := footer d ++ x) in *.
  assert (OKY : bytes_ok y).
  { unfold y. apply Forall_app. split; [|exact OK]. unfold footer. destruct (_ =? 1); [|constructor]. destruct D as (V & R & F & L' & _). rewrite R. repeat constructor; try exact V; try exact F; unfold byte_ok, seven; lia. }
  assert (NOT : forall p k, lenN p = k -> k <= 4 -> takeN k (takeN 4 (y ++ [0; 0; 0; 0])) <> p -> forall r, y <> p ++ r).
  { intros p k LP K NE r EY. apply NE. rewrite EY, <- app_assoc. rewrite take_take by auto. now apply takeN_app. }
  assert (T3 : forall p, takeN 3 (takeN 4 (y ++ [0; 0; 0; 0])) = p -> takeN 3 (y ++ [0; 0; 0; 0]) = p) by (intros p; rewrite take_take by lia; auto).
  assert (T4 : takeN 4 (takeN 4 (y ++ [0; 0; 0; 0])) = takeN 4 (y ++ [0; 0; 0; 0])) by (apply take_take; lia).
  destruct (list_eqb (takeN 3 (takeN 4 (y ++ [0; 0; 0; 0]))) ($"MAC")) eqn:E1.
  { apply list_eqb_eq, T3, pad_prefix in E1 as (r & ->); [|reflexivity|lia|repeat constructor; discriminate]. intros G. injection G as <- _. left. eauto. }
  destruct (list_eqb (takeN 4 (y ++ [0; 0; 0; 0])) ($"fLaC")) eqn:E2.
  { apply list_eqb_eq, pad_prefix in E2 as (r & ->); [|reflexivity|lia|repeat constructor; discriminate]. intros G. injection G as <- _. right. left. eauto. }
  destruct (list_eqb (takeN 4 (y ++ [0; 0; 0; 0])) ($"MPCK")) eqn:E3; cbn [orb].
  { apply list_eqb_eq, pad_prefix in E3 as (r & ->); [|reflexivity|lia|repeat constructor; discriminate]. intros G. injection G as <- _. right. right. left. eauto. }
  destruct (list_eqb (takeN 3 (takeN 4 (y ++ [0; 0; 0; 0]))) ($"MP+")) eqn:E4.
  { apply list_eqb_eq, T3, pad_prefix in E4 as (r & ->); [|reflexivity|lia|repeat constructor; discriminate]. intros G. injection G as <- _. right. right. left. eauto. }
  destruct (check_found junk u') as (f' & p & -> & F). { rewrite RU. exact OKY. } intros G. injection G as <- _. right. right. right. rewrite RU in F. split; [|exact F].
  intros r. apply list_eqb_neq in E1, E2, E3, E4. repeat split.
  - apply (NOT _ 3); auto. lia.
  - apply (NOT _ 4); auto; [lia|now rewrite T4].
  - apply (NOT _ 4); auto; [lia|now rewrite T4].
  - apply (NOT _ 3); auto. lia.
Qed.

(** ** Nothing else is recognised. *)
Lemma slice_split : forall a b d p, a <= b -> lenN p = b - a -> slice a b d = p -> d = takeN a d ++ p ++ dropN b d.
Proof.
  intros a b d p AB L E. rewrite <- E. unfold slice. replace b with (a + (b - a)) at 2 by lia. rewrite <- dropN_dropN. rewrite takeN_dropN. symmetry. apply takeN_dropN.
Qed.
Lemma slice0 : forall b d p, lenN p = b -> slice 0 b d = p -> d = p ++ dropN b d.
Proof. intros b d p L E. apply (slice_split 0 b d p) in E; [|lia|lia]. exact E. Qed.
Lemma slice_two : forall a b c d p q, slice 0 a d = p -> slice b c d = q -> lenN p = a -> a <= b <= c -> lenN q = c - b -> c <= lenN d -> exists m r, d = p ++ m ++ q ++ r /\ lenN m = b - a.
Proof.
  intros a b c d p q EP EQ LP AB LQ LC. exists (slice a b d), (dropN c d). apply slice0 in EP; auto. apply slice_split in EQ; [|lia|lia].
  assert (X : takeN b d = p ++ slice a b d). { rewrite EP at 1. rewrite takeN_app_ge by lia. unfold slice. now rewrite LP. }
  split. - rewrite EQ at 1. rewrite X, <- app_assoc. reflexivity. - unfold slice. rewrite lenN_takeN, lenN_dropN. lia.
Qed.
Lemma starts_split : forall p d, starts_with p d = true -> exists r, d = p ++ r.
Proof. intros p d H. unfold starts_with in H. apply andb_prop in H as [H _]. apply list_eqb_eq in H. exists (dropN (lenN p) d). rewrite <- H at 1. symmetry. apply takeN_dropN. Qed.
Lemma quick_marked : forall d f, bytes_ok d -> quick_type_guess d = Some f -> marked f d.
Proof.
  intros [|b0 t] f OK; [discriminate|]. unfold quick_type_guess. remember (b0 :: t) as d eqn:ED.
  destruct ((b0 =? 77) && starts_with ($"MAC") d) eqn:E1. { apply andb_prop in E1 as [_ E1]. apply starts_split in E1 as (r & ->). injection 1 as <-. constructor. }
  destruct ((b0 =? 255) && (2 <=? lenN d) && verify_frame_sync b0 (nth 1 d 0)) eqn:E2.
  { apply andb_prop in E2 as [E2 V]. apply andb_prop in E2 as [_ L]. rewrite ED in *. destruct t as [|b1 t]; [discriminate L|]. cbn [nth] in *. apply Forall_cons_iff in OK as [_ OK]. apply Forall_cons_iff in OK as [B _].
    apply verify_iff in V as [-> GE]; [|exact B]. intros H. assert (X : f = kind_of b1). { rewrite <- kind_eq by exact B. revert H. destruct (negb _ && _); congruence. } subst f. now constructor. }
  destruct ((b0 =? 70) && (12 <=? lenN d) && list_eqb (slice 0 4 d) ($"FORM")) eqn:E3.
  { apply andb_prop in E3 as [E3 S4]. apply andb_prop in E3 as [_ L]. apply N.leb_le in L. apply list_eqb_eq in S4.
    destruct (list_eqb (slice 8 12 d) ($"AIFF")) eqn:A; cbn [orb]. { apply list_eqb_eq in A. destruct (slice_two 4 8 12 d _ _ S4 A eq_refl ltac:(lia) eq_refl L) as (m & r & -> & LM). injection 1 as <-. constructor. exact LM. }
    destruct (list_eqb (slice 8 12 d) ($"AIFC")) eqn:C; [|discriminate]. apply list_eqb_eq in C. destruct (slice_two 4 8 12 d _ _ S4 C eq_refl ltac:(lia) eq_refl L) as (m & r & -> & LM). injection 1 as <-. constructor. exact LM. }
  destruct ((b0 =? 79) && (36 <=? lenN d) && list_eqb (slice 0 4 d) ($"OggS")) eqn:E4.
  { apply andb_prop in E4 as [E4 S4]. apply andb_prop in E4 as [_ L]. apply N.leb_le in L. apply list_eqb_eq in S4.
    destruct (list_eqb (slice 29 35 d) ($"vorbis")) eqn:A. { apply list_eqb_eq in A. destruct (slice_two 4 29 35 d _ _ S4 A eq_refl ltac:(lia) eq_refl ltac:(lia)) as (m & r & -> & LM). injection 1 as <-. constructor. exact LM. }
    destruct (list_eqb (slice 28 36 d) ($"OpusHead")) eqn:C. { apply list_eqb_eq in C. destruct (slice_two 4 28 36 d _ _ S4 C eq_refl ltac:(lia) eq_refl L) as (m & r & -> & LM). injection 1 as <-. constructor. exact LM. }
    destruct (list_eqb (slice 28 36 d) ($"Speex   ")) eqn:D; [|discriminate]. apply list_eqb_eq in D. destruct (slice_two 4 28 36 d _ _ S4 D eq_refl ltac:(lia) eq_refl L) as (m & r & -> & LM). injection 1 as <-. constructor. exact LM. }
  destruct ((b0 =? 102) && starts_with ($"fLaC") d) eqn:E5. { apply andb_prop in E5 as [_ E5]. apply starts_split in E5 as (r & ->). injection 1 as <-. constructor. }
  destruct ((b0 =? 82) && (12 <=? lenN d) && list_eqb (slice 0 4 d) ($"RIFF")) eqn:E6.
  { apply andb_prop in E6 as [E6 S4]. apply andb_prop in E6 as [_ L]. apply N.leb_le in L. apply list_eqb_eq in S4.
    destruct (list_eqb (slice 8 12 d) ($"WAVE")) eqn:A; [|discriminate]. apply list_eqb_eq in A. destruct (slice_two 4 8 12 d _ _ S4 A eq_refl ltac:(lia) eq_refl L) as (m & r & -> & LM). injection 1 as <-. constructor. exact LM. }
  destruct ((b0 =? 119) && (4 <=? lenN d) && list_eqb (slice 0 4 d) ($"wvpk")) eqn:E7. { apply andb_prop in E7 as [_ E7]. apply list_eqb_eq, slice0 in E7; [|reflexivity]. injection 1 as <-. rewrite E7. constructor. }
  destruct ((8 <=? lenN d) && list_eqb (slice 4 8 d) ($"ftyp")) eqn:E8.
  { apply andb_prop in E8 as [L E8]. apply N.leb_le in L. apply list_eqb_eq, slice_split in E8; [|lia|reflexivity]. injection 1 as <-. rewrite E8. constructor. rewrite lenN_takeN. lia. }
  destruct (starts_with ($"MPCK") d) eqn:E9; cbn [orb]. { apply starts_split in E9 as (r & ->). injection 1 as <-. constructor. }
  destruct (starts_with ($"MP+") d) eqn:E10; [|discriminate]. apply starts_split in E10 as (r & ->). injection 1 as <-. constructor.
Qed.
