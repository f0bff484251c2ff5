(** Lemmas about reading AIFF files ([AiffModel.v]). *)
From Verif Require Import BaseLemmas StrLemmas TextProof IffModel IffSpec IffProof IffProof2 IffProof3 IffProof4 AiffModel AiffProof.

(** ** What a chunk adds, on the content of the chunk *)
Definition dec_str (b : bytes) : res iff_error str := match utf8_decode b with Ok t => Ok t | Err _ => Err IText | Panic => Panic end.
Fixpoint dec_comments (n : nat) (b : bytes) : res iff_error (list comment) :=
  match n with
  | O => Ok []
  | S n =>
      let? (t, b) := iord (read_exact 4 b) in
      let? (mk, b) := iord (read_exact 2 b) in
      let? (sz, b) := iord (read_exact 2 b) in
      let? (x, b) := iord (read_exact (be_dec sz) b) in
      let? text := dec_str x in
      let? l := dec_comments n b in
      Ok (mkComt (be_dec t) (be_dec mk) text :: l)
  end.
Section READ.
Context {T : Type} (id3 : bytes -> res iff_error T) (join : T -> T -> T).
Definition take1 (m : pmode) (tags props : bool) (c : bytes * bytes) (a : aiff_acc T) : res iff_error (aiff_acc T) :=
  let is x := list_eqb (fst c) x in
  let b := snd c in
  let '(mkAa comm stream name author copy anno comments tag) := a in
  if (is ($"ID3 ") || is ($"id3 ")) && tags then
    if lenN b <? 10 then if is_strict m then Err IFake else Ok a
    else let? t := id3 b in Ok (mkAa comm stream name author copy anno comments (Some (match tag with Some old => join old t | None => t end)))
  else if is ($"COMM") && props && is_none comm then
    if lenN b <? 18 then Err INeed else Ok (mkAa (Some b) stream name author copy anno comments tag)
  else if is ($"SSND") && props then Ok (mkAa comm (lenN b) name author copy anno comments tag)
  else if is ($"ANNO") && tags then let? t := dec_str b in Ok (mkAa comm stream name author copy (anno ++ [t]) comments tag)
  else if is ($"COMT") && is_nil comments && tags then
    if lenN b <? 2 then Ok a else
    let? l := dec_comments (N.to_nat (be_dec (takeN 2 b))) (dropN 2 b) in Ok (mkAa comm stream name author copy anno l tag)
  else if is ($"NAME") && is_none name && tags then let? t := dec_str b in Ok (mkAa comm stream (Some t) author copy anno comments tag)
  else if is ($"AUTH") && is_none author && tags then let? t := dec_str b in Ok (mkAa comm stream name (Some t) copy anno comments tag)
  else if is ($"(c) ") && is_none copy && tags then let? t := dec_str b in Ok (mkAa comm stream name author (Some t) anno comments tag)
  else Ok a.
Fixpoint take_all (m : pmode) (tags props : bool) (cs : list (bytes * bytes)) (a : aiff_acc T) : res iff_error (aiff_acc T) :=
  match cs with [] => Ok a | c :: cs => let? a := take1 m tags props c a in take_all m tags props cs a end.

(** The rest of a chunk's content is where the reader is. *)
Lemma read_part : forall n total rem size lk b more pos, lenN b <= size ->
  chunk_read n (mkCh total rem size (lenN b) lk (b ++ more) pos) =
  match read_exact n b with
  | Some (x, b') => Ok (x, mkCh total (rem - n) size (lenN b') lk (b' ++ more) (pos + n))
  | None => Err IEof
  end.
Proof.
  intros n total rem size lk b more pos L. unfold chunk_read. destruct (read_exact n b) as [[x b']|] eqn:E.
  - apply read_exact_spec in E as [-> XL]. rewrite lenN_app. destruct (N.ltb_spec (lenN x + lenN b') n); [lia|]. rewrite <- app_assoc, read_exact_app by auto. cbn [iord bind]. do 3 f_equal. lia.
  - apply read_exact_none in E. destruct (N.ltb_spec (lenN b) n); [reflexivity|lia].
Qed.
Lemma read_comments_spec : forall n total rem size lk b more pos, lenN b <= size -> lenN b <= rem ->
  match dec_comments n b with
  | Ok l => exists n' b' , read_comments n (mkCh total rem size (lenN b) lk (b ++ more) pos) = Ok (l, mkCh total (rem - n') size (lenN b') lk (b' ++ more) (pos + n')) /\ lenN b = n' + lenN b'
  | Err e => read_comments n (mkCh total rem size (lenN b) lk (b ++ more) pos) = Err e
  | Panic => read_comments n (mkCh total rem size (lenN b) lk (b ++ more) pos) = Panic
  end.
Proof.
  induction n as [|n IH]; intros total rem size lk b more pos L R; cbn [dec_comments read_comments].
  - exists 0, b. split; [|lia]. do 3 f_equal; lia.
  - rewrite read_part by auto. destruct (read_exact 4 b) as [[t b1]|] eqn:E1; cbn [iord bind]; [|reflexivity]. apply read_exact_spec in E1 as [-> L1]. rewrite lenN_app in L, R |- *.
    rewrite read_part by lia. destruct (read_exact 2 b1) as [[mk b2]|] eqn:E2; cbn [iord bind]; [|reflexivity]. apply read_exact_spec in E2 as [-> L2]. rewrite lenN_app in L, R |- *.
    rewrite read_part by lia. destruct (read_exact 2 b2) as [[sz b3]|] eqn:E3; cbn [iord bind]; [|reflexivity]. apply read_exact_spec in E3 as [-> L3]. rewrite lenN_app in L, R |- *.
    unfold chunk_string. rewrite read_part by lia. destruct (read_exact (be_dec sz) b3) as [[x b4]|] eqn:E4; cbn [iord bind]; [|reflexivity]. apply read_exact_spec in E4 as [-> L4]. rewrite lenN_app in L, R |- *.
    unfold dec_str. destruct (utf8_decode x) as [text|e|]; cbn [bind]; auto.
    specialize (IH total (rem - 4 - 2 - 2 - be_dec sz) size lk b4 more (pos + 4 + 2 + 2 + be_dec sz) ltac:(lia) ltac:(lia)).
    destruct (dec_comments n b4) as [l|e|]; cbn [bind]; [|now rewrite IH|now rewrite IH].
    destruct IH as (n' & b' & IH & LB). rewrite IH. cbn [bind]. exists (4 + 2 + 2 + be_dec sz + n'), b'. split; [|lia]. do 3 f_equal; lia.
Qed.

Lemma aiff_step : forall m tags props c total rem more pos a, chunk_ok c -> lenN (chunk_bytes true c) <= rem ->
  match take1 m tags props c a with
  | Ok a' => exists s, aiff_chunk id3 join m tags props (mkChunk (fst c) (lenN (snd c)) (total - rem)) (inside true total rem None c more pos) a = Ok (a', s) /\
      skip s = Ok (fresh total (rem - lenN (chunk_bytes true c)) None more (pos + lenN (chunk_bytes true c)))
  | Err e => aiff_chunk id3 join m tags props (mkChunk (fst c) (lenN (snd c)) (total - rem)) (inside true total rem None c more pos) a = Err e
  | Panic => aiff_chunk id3 join m tags props (mkChunk (fst c) (lenN (snd c)) (total - rem)) (inside true total rem None c more pos) a = Panic
  end.
Proof.
  intros m tags props [id b] total rem more pos a CO R.
  assert (SKI := skip_inside true total rem None (id, b) more pos CO R).
  assert (RD := fun n => read_inside true total rem None (id, b) more pos n CO). cbn [snd] in RD.
  assert (SKR := fun n L => skip_read true total rem None (id, b) more pos n CO L R). cbn [snd] in SKR.
  assert (RA := RD (lenN b) (N.le_refl _)). rewrite takeN_all in RA by lia. assert (SA := SKR (lenN b) (N.le_refl _)).
  set (sa := mkCh total (rem - 8 - lenN b) (lenN b) (lenN b - lenN b) None (dropN (lenN b) b ++ pad_of b ++ more) (pos + 8 + lenN b)) in *.
  assert (CS : chunk_string (lenN b) (inside true total rem None (id, b) more pos) = (let? t := dec_str b in Ok (t, sa))).
  { unfold chunk_string, dec_str. rewrite RA. cbn [bind]. destruct (utf8_decode b); reflexivity. }
  unfold take1, aiff_chunk. cbn [fst snd k_fourcc k_size]. destruct a as [comm stream name author copy anno comments tag].
  destruct ((list_eqb id ($"ID3 ") || list_eqb id ($"id3 ")) && tags).
  { unfold id3_chunk. rewrite RA. cbn [bind]. destruct (lenN b <? 10).
    - destruct (is_strict m); [reflexivity|]. cbn [bind]. eexists. split; [reflexivity|exact SA].
    - destruct (id3 b); cbn [bind]; auto. eexists. split; [reflexivity|exact SA]. }
  destruct (list_eqb id ($"COMM") && props && is_none comm).
  { destruct (lenN b <? 18); [reflexivity|]. rewrite RA. cbn [bind]. eexists. split; [reflexivity|exact SA]. }
  destruct (list_eqb id ($"SSND") && props). { eexists. split; [reflexivity|exact SKI]. }
  destruct (list_eqb id ($"ANNO") && tags). { rewrite CS. destruct (dec_str b); cbn [bind]; auto. eexists. split; [reflexivity|exact SA]. }
  destruct (list_eqb id ($"COMT") && is_nil comments && tags).
  { destruct (N.ltb_spec (lenN b) 2). eexists. split; [reflexivity|exact SKI].
    rewrite RD by lia. cbn [bind]. rewrite chunk_bytes_len in R by auto. cbn [snd] in R.
    assert (RC := read_comments_spec (N.to_nat (be_dec (takeN 2 b))) total (rem - 8 - 2) (lenN b) None (dropN 2 b) (pad_of b ++ more) (pos + 8 + 2)). rewrite lenN_dropN in RC. specialize (RC ltac:(lia) ltac:(lia)).
    destruct (dec_comments (N.to_nat (be_dec (takeN 2 b))) (dropN 2 b)) as [l|e|]; cbn [bind]; [|now rewrite RC|now rewrite RC].
    destruct RC as (n' & b' & -> & LB). cbn [bind]. eexists. split; [reflexivity|].
    rewrite chunk_bytes_len by auto. cbn [snd]. rewrite skip_pending; auto using pad_of_len, pad_zero; [|lia]. unfold fresh. do 2 f_equal; lia. }
  destruct (list_eqb id ($"NAME") && is_none name && tags). { rewrite CS. destruct (dec_str b); cbn [bind]; auto. eexists. split; [reflexivity|exact SA]. }
  destruct (list_eqb id ($"AUTH") && is_none author && tags). { rewrite CS. destruct (dec_str b); cbn [bind]; auto. eexists. split; [reflexivity|exact SA]. }
  destruct (list_eqb id ($"(c) ") && is_none copy && tags). { rewrite CS. destruct (dec_str b); cbn [bind]; auto. eexists. split; [reflexivity|exact SA]. }
  eexists. split; [reflexivity|exact SKI].
Qed.
Lemma aiff_walk : forall cs fuel m tags props s total rem more pos a k, Forall chunk_ok cs ->
  skip s = Ok (fresh total rem None (body true cs ++ more) pos) -> rem = lenN (body true cs) + k -> k < 8 -> (length cs < fuel)%nat ->
  aiff_loop id3 join fuel m tags props s a = (let? a := take_all m tags props cs a in Ok (a, fresh total k None more (pos + lenN (body true cs)))).
Proof.
  induction cs as [|c cs IH]; intros fuel m tags props s total rem more pos a k OK SK R K F; (destruct fuel as [|fuel]; [cbn [length] in F; lia|]); cbn [aiff_loop take_all].
  - cbn [body flat_map app] in *. rewrite lenN_nil in *. rewrite (next_none _ m s total rem None more pos SK) by lia. cbn [bind]. unfold fresh. do 3 f_equal; lia.
  - inversion OK as [|? ? O1 O2]; subst. rewrite body_cons, <- app_assoc in SK. rewrite body_cons, lenN_app in *.
    set (rem := lenN (chunk_bytes true c) + lenN (body true cs) + k) in *. assert (R1 : lenN (chunk_bytes true c) <= rem) by (unfold rem; lia).
    rewrite (next_at true m s total rem None c _ pos SK) by auto. cbn [bind].
    assert (ST := aiff_step m tags props c total rem (body true cs ++ more) pos a O1 R1).
    destruct (take1 m tags props c a) as [a'|e|]; cbn [bind]; [|now rewrite ST|now rewrite ST]. destruct ST as (s' & E & SK'). rewrite E. cbn [bind].
    rewrite (IH fuel m tags props s' total (rem - lenN (chunk_bytes true c)) more (pos + lenN (chunk_bytes true c)) a' k O2 SK'); auto; try (unfold rem; lia).
    + destruct (take_all m tags props cs a'); cbn [bind]; auto. unfold fresh. do 3 f_equal. lia.
    + cbn [length] in F. lia.
Qed.
Definition acc0 : aiff_acc T := mkAa None 0 None None None [] [] None.
Lemma aiff_read_spec : forall m tags props kind cs junk size, aiff_kind kind -> Forall chunk_ok cs -> lenN junk < 8 ->
  aiff_read id3 join m tags props (hdr true ($"FORM") size kind ++ body true cs ++ junk) =
  (let? a := take_all m tags props cs acc0 in
   let? p := (if props then
      match aa_comm a with
      | None => Err IMissingComm
      | Some comm =>
          if aa_stream a =? 0 then Err (IMessage 9) else
          let? p := aiff_properties comm (list_eqb kind ($"AIFC")) (aa_stream a) (12 + lenN (body true cs)) in Ok (Some p)
      end
    else Ok None) in
   Ok (mkAf p (acc_text a) (aa_id3 a))).
Proof.
  intros m tags props kind cs junk size KO OK J. unfold aiff_read. assert (KL := aiff_kind_len _ KO).
  assert (V : verify_aiff (hdr true ($"FORM") size kind ++ body true cs ++ junk) = Ok (list_eqb kind ($"AIFC"), body true cs ++ junk)).
  { unfold verify_aiff. rewrite read_exact_app by (now apply head_len4). cbn [iord bind]. unfold hdr. rewrite takeN_app by reflexivity. rewrite list_eqb_refl. cbn [negb].
    rewrite dropN_app_ge by (cbv; discriminate). change (8 - lenN ($"FORM")) with 4. rewrite dropN_app by apply size32_len. destruct KO as [-> | ->]; reflexivity. }
  rewrite V. cbn [bind]. rewrite !lenN_app, head_len4 by auto. set (rem := 12 + (lenN (body true cs) + lenN junk) - 12).
  rewrite (aiff_walk cs _ m tags props (chunks_new (body true cs ++ junk) 12 rem) rem rem junk 12 acc0 (lenN junk) OK); auto; try (unfold rem; lia).
  - destruct (take_all m tags props cs acc0); cbn [bind]; auto.
  - pose proof (body_count_be true cs OK). rewrite !app_length. lia.
Qed.

(** ** Chunks that are not text leave the text alone *)
Definition texts (a : aiff_acc T) := (aa_name a, aa_author a, aa_copy a, aa_anno a, aa_comments a).
Lemma take_other : forall m tags props c a a', not_text c = true -> take1 m tags props c a = Ok a' -> texts a' = texts a.
Proof.
  intros m tags props [id b] [comm stream name author copy anno comments tag] a' NT H. unfold not_text, is_text_id in NT. cbn [fst] in NT. unfold take1 in H. cbn [fst snd] in H.
  destruct (list_eqb id ($"NAME")); [discriminate NT|]. destruct (list_eqb id ($"AUTH")); [discriminate NT|]. destruct (list_eqb id ($"(c) ")); [discriminate NT|].
  destruct (list_eqb id ($"ANNO")); [discriminate NT|]. destruct (list_eqb id ($"COMT")); [discriminate NT|]. cbn [andb] in H.
  destruct (_ && tags). { destruct (lenN b <? 10). destruct (is_strict m); [discriminate|]. now inversion H. destruct (id3 b); try discriminate. cbn [bind] in H. now inversion H. }
  destruct (_ && _ && is_none comm). { destruct (lenN b <? 18); [discriminate|]. now inversion H. }
  destruct (_ && props). now inversion H. now inversion H.
Qed.
Lemma take_others : forall m tags props cs a a', Forall (fun c => not_text c = true) cs -> take_all m tags props cs a = Ok a' -> texts a' = texts a.
Proof.
  induction cs as [|c cs IH]; intros a a' F H; cbn [take_all] in H. now inversion H. inversion F; subst.
  destruct (take1 m tags props c a) as [a1|e|] eqn:E; cbn [bind] in H; try discriminate. rewrite (IH a1 a') by auto. eapply take_other; eauto.
Qed.
Lemma take_app : forall m tags props c1 c2 a, take_all m tags props (c1 ++ c2) a = (let? a := take_all m tags props c1 a in take_all m tags props c2 a).
Proof. induction c1 as [|c c1 IH]; intros; cbn [app take_all]. reflexivity. destruct (take1 m tags props c a); cbn [bind]; auto. Qed.

(** ** The text chunks read back *)
Lemma dec_value : forall s, value_ok s -> dec_str (utf8_enc s) = Ok s.
Proof.
  intros s (O & L & _). unfold dec_str, utf8_decode. rewrite utf8_dec_enc by auto. f_equal. symmetry. apply trim_unique. split; [exists 0%nat; now rewrite app_nil_r|exact L].
Qed.
(** Only the last comment may have an odd length. *)
Fixpoint only_last_odd (l : list comment) : Prop :=
  match l with
  | [] => True
  | c :: l => (l <> [] -> N.even (lenN (utf8_enc (ct_text c))) = true) /\ only_last_odd l
  end.
Lemma dec_comments_ok : forall l more, Forall comment_ok l -> only_last_odd l -> dec_comments (length l) (flat_map one_comment l ++ more) = Ok l.
Proof.
  induction l as [|c l IH]; intros more OK OD; [reflexivity|]. inversion OK as [|? ? O1 O2]; subst. destruct O1 as (T1 & M1 & S1 & N1 & L1).
  cbn [length dec_comments flat_map]. unfold one_comment at 1. rewrite <- !app_assoc. set (b := utf8_enc (ct_text c)) in *.
  rewrite read_exact_app by apply be_enc_len. cbn [iord bind]. rewrite read_exact_app by apply be_enc_len. cbn [iord bind]. rewrite read_exact_app by apply be_enc_len. cbn [iord bind].
  rewrite (be_dec_enc 2 (lenN b)) by exact L1. rewrite read_exact_app by reflexivity. cbn [iord bind].
  assert (D : dec_str b = Ok (ct_text c)) by (apply dec_value; split; [|split]; auto; change (2 ^ 32) with 4294967296; change (2 ^ 16) with 65536 in L1; fold b; lia). rewrite D. cbn [bind].
  assert (E : dec_comments (length l) (cmt_pad b ++ flat_map one_comment l ++ more) = Ok l).
  { destruct l as [|c2 l]; [reflexivity|]. destruct OD as [EV OD]. specialize (EV ltac:(discriminate)). unfold cmt_pad. fold b in EV. rewrite EV. cbn [app]. apply IH; auto. }
  rewrite E. cbn [bind]. rewrite (be_dec_enc 4) by exact T1. rewrite (be_dec_enc 2) by exact M1. destruct c; reflexivity.
Qed.
Definition norm_list {A} (o : option (list A)) : list A := match o with Some l => l | None => [] end.
Lemma take_annos : forall m props l comm stream name author copy anno comments tag, Forall value_ok l ->
  take_all m true props (map (fun a => ($"ANNO", utf8_enc a)) l) (mkAa comm stream name author copy anno comments tag) = Ok (mkAa comm stream name author copy (anno ++ l) comments tag).
Proof.
  induction l as [|x l IH]; intros comm stream name author copy anno comments tag F; cbn [map take_all]. now rewrite app_nil_r.
  inversion F; subst. unfold take1. cbn [fst snd].
  change (list_eqb ($"ANNO") ($"ID3 ")) with false. change (list_eqb ($"ANNO") ($"id3 ")) with false. change (list_eqb ($"ANNO") ($"COMM")) with false. change (list_eqb ($"ANNO") ($"SSND")) with false. change (list_eqb ($"ANNO") ($"ANNO")) with true.
  cbn [orb andb]. rewrite dec_value by auto. cbn [bind]. rewrite IH by auto. now rewrite <- app_assoc.
Qed.
Lemma take_texts : forall m props t comm stream tag, text_ok t -> match at_comments t with Some l => only_last_odd l | None => True end ->
  take_all m true props (text_chunks t) (mkAa comm stream None None None [] [] tag) =
  Ok (mkAa comm stream (at_name t) (at_author t) (at_copy t) (norm_list (at_anno t)) (norm_list (at_comments t)) tag).
Proof.
  intros m props t comm stream tag (O1 & O2 & O3 & O4 & O5) OD. unfold text_chunks. rewrite take_app.
  assert (C : take_all m true props (match at_comments t with Some (c :: l) => [($"COMT", comt_content (c :: l))] | _ => [] end) (mkAa comm stream None None None [] [] tag) =
    Ok (mkAa comm stream None None None [] (norm_list (at_comments t)) tag)).
  { destruct (at_comments t) as [[|c l]|]; try reflexivity. destruct O5 as (OC & L1 & L2). cbn [take_all]. unfold take1. cbn [fst snd].
    change (list_eqb ($"COMT") ($"ID3 ")) with false. change (list_eqb ($"COMT") ($"id3 ")) with false. change (list_eqb ($"COMT") ($"COMM")) with false. change (list_eqb ($"COMT") ($"SSND")) with false. change (list_eqb ($"COMT") ($"ANNO")) with false. change (list_eqb ($"COMT") ($"COMT")) with true.
    cbn [orb andb is_nil]. unfold comt_content. rewrite takeN_app by apply be_enc_len. rewrite dropN_app by apply be_enc_len. rewrite lenN_app, be_enc_len. destruct (N.ltb_spec (N.of_nat 2 + lenN (flat_map one_comment (c :: l))) 2); [lia|].
    rewrite be_dec_enc by exact L1. unfold lenN at 1. rewrite Nat2N.id. assert (D := dec_comments_ok (c :: l) [] OC OD). rewrite app_nil_r in D. rewrite D. reflexivity. }
  rewrite C. cbn [bind]. set (cmts := norm_list (at_comments t)).
  assert (N1 : forall (nm : option str), opt_ok nm -> take_all m true props (opt_chunk ($"NAME") nm) (mkAa comm stream None None None [] cmts tag) = Ok (mkAa comm stream nm None None [] cmts tag)).
  { intros [s|] O; [|reflexivity]. cbn [opt_chunk take_all]. unfold take1. cbn [fst snd].
    change (list_eqb ($"NAME") ($"ID3 ")) with false. change (list_eqb ($"NAME") ($"id3 ")) with false. change (list_eqb ($"NAME") ($"COMM")) with false. change (list_eqb ($"NAME") ($"SSND")) with false. change (list_eqb ($"NAME") ($"ANNO")) with false. change (list_eqb ($"NAME") ($"COMT")) with false. change (list_eqb ($"NAME") ($"NAME")) with true.
    cbn [orb andb is_none]. rewrite dec_value by exact O. reflexivity. }
  assert (N2 : forall (nm au : option str), opt_ok au -> take_all m true props (opt_chunk ($"AUTH") au) (mkAa comm stream nm None None [] cmts tag) = Ok (mkAa comm stream nm au None [] cmts tag)).
  { intros nm [s|] O; [|reflexivity]. cbn [opt_chunk take_all]. unfold take1. cbn [fst snd].
    change (list_eqb ($"AUTH") ($"ID3 ")) with false. change (list_eqb ($"AUTH") ($"id3 ")) with false. change (list_eqb ($"AUTH") ($"COMM")) with false. change (list_eqb ($"AUTH") ($"SSND")) with false. change (list_eqb ($"AUTH") ($"ANNO")) with false. change (list_eqb ($"AUTH") ($"COMT")) with false. change (list_eqb ($"AUTH") ($"NAME")) with false. change (list_eqb ($"AUTH") ($"AUTH")) with true.
    cbn [orb andb is_none]. rewrite dec_value by exact O. reflexivity. }
  assert (N3 : forall (nm au cp : option str), opt_ok cp -> take_all m true props (opt_chunk ($"(c) ") cp) (mkAa comm stream nm au None [] cmts tag) = Ok (mkAa comm stream nm au cp [] cmts tag)).
  { intros nm au [s|] O; [|reflexivity]. cbn [opt_chunk take_all]. unfold take1. cbn [fst snd].
    change (list_eqb ($"(c) ") ($"ID3 ")) with false. change (list_eqb ($"(c) ") ($"id3 ")) with false. change (list_eqb ($"(c) ") ($"COMM")) with false. change (list_eqb ($"(c) ") ($"SSND")) with false. change (list_eqb ($"(c) ") ($"ANNO")) with false. change (list_eqb ($"(c) ") ($"COMT")) with false. change (list_eqb ($"(c) ") ($"NAME")) with false. change (list_eqb ($"(c) ") ($"AUTH")) with false. change (list_eqb ($"(c) ") ($"(c) ")) with true.
    cbn [orb andb is_none]. rewrite dec_value by exact O. reflexivity. }
  rewrite take_app, N1 by auto. cbn [bind]. rewrite take_app, N2 by auto. cbn [bind]. rewrite take_app, N3 by auto. cbn [bind].
  destruct (at_anno t) as [l|]; [|reflexivity]. now rewrite take_annos by auto.
Qed.
(** What comes back: a list that is there but empty is not told from one that is not. *)
Definition norm_text (t : aiff_text) : option aiff_text :=
  let o {A} (x : option (list A)) := match x with Some (a :: l) => Some (a :: l) | _ => None end in
  let t' := mkAt (at_name t) (at_author t) (at_copy t) (o (at_anno t)) (o (at_comments t)) in
  if at_is_empty t' then None else Some t'.
Lemma texts_back : forall m props a b t acc, Forall (fun c => not_text c = true) a -> Forall (fun c => not_text c = true) b -> text_ok t -> match at_comments t with Some l => only_last_odd l | None => True end ->
  take_all m true props (a ++ text_chunks t ++ b) acc0 = Ok acc -> acc_text acc = norm_text t.
Proof.
  intros m props a b t acc NA NB TO OD H. rewrite take_app in H. destruct (take_all m true props a acc0) as [a1| |] eqn:E1; cbn [bind] in H; try discriminate.
  apply take_others in E1; auto. destruct a1 as [comm stream name author copy anno comments tag]. unfold texts, acc0 in E1. cbn [aa_name aa_author aa_copy aa_anno aa_comments] in E1. inversion E1; subst.
  rewrite take_app, take_texts in H by auto. cbn [bind] in H. apply take_others in H; auto. unfold texts in H. cbn [aa_name aa_author aa_copy aa_anno aa_comments] in H. inversion H as [[H1 H2 H3 H4 H5]].
  unfold acc_text, norm_text. rewrite H1, H2, H3, H4, H5. unfold norm_list. destruct (at_anno t) as [[|]|], (at_comments t) as [[|]|]; reflexivity.
Qed.
End READ.
