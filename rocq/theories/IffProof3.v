(** Lemmas about reading WAV files ([IffModel.v]). *)
From Verif Require Import BaseLemmas StrLemmas TextProof IffModel IffSpec IffProof IffProof2.

(** The chunks of a WAV file, with INFO lists opened. *)
Inductive wchunk := WInfo (subs : list (bytes * bytes)) | WChunk (c : bytes * bytes).
Definition to_chunk (w : wchunk) : bytes * bytes := match w with WInfo subs => ($"LIST", $"INFO" ++ body false subs) | WChunk c => c end.
Definition id3_id (id : bytes) : bool := list_eqb id ($"ID3 ") || list_eqb id ($"id3 ").
Definition wchunk_ok (m : pmode) (w : wchunk) : Prop :=
  chunk_ok (to_chunk w) /\
  match w with
  | WInfo subs => Forall chunk_ok subs /\ Forall (readable m) subs
  | WChunk c => is_info c = false /\ list_ok c /\ (fst c = $"fact" -> 4 <= lenN (snd c)) /\ (is_strict m = true -> id3_id (fst c) = true -> 10 <= lenN (snd c))
  end.
(** What reading takes from the chunks. *)
Definition with_id (id : bytes) (ws : list wchunk) : list bytes :=
  flat_map (fun w => match w with WChunk c => if list_eqb (fst c) id then [snd c] else [] | _ => [] end) ws.
Definition infos (ws : list wchunk) : riff := flat_map (fun w => match w with WInfo subs => flat_map text_of subs | _ => [] end) ws.
Definition id3_contents (ws : list wchunk) : list bytes :=
  flat_map (fun w => match w with WChunk c => if id3_id (fst c) && negb (lenN (snd c) <? 10) then [snd c] else [] | _ => [] end) ws.
Fixpoint first_nonzero (l : list N) : N := match l with [] => 0 | n :: l => if n =? 0 then first_nonzero l else n end.
Fixpoint first_nonempty (l : list bytes) : bytes := match l with [] => [] | b :: l => if lenN b =? 0 then first_nonempty l else b end.
Fixpoint join_all {T} (id3 : bytes -> res iff_error T) (join : T -> T -> T) (acc : option T) (l : list bytes) : res iff_error (option T) :=
  match l with
  | [] => Ok acc
  | b :: l => let? t := id3 b in join_all id3 join (Some (match acc with Some o => join o t | None => t end)) l
  end.
Definition join_if {T} (tags : bool) (id3 : bytes -> res iff_error T) (join : T -> T -> T) (acc : option T) (l : list bytes) : res iff_error (option T) :=
  if tags then join_all id3 join acc l else Ok acc.

Lemma unlock_end : forall total outer parent rest pos k, k < 8 -> N.even parent = true -> k = 0 ->
  unlock (mkCh total k 0 0 (Some (outer, parent)) rest pos) = Ok (mkCh total outer 0 0 None rest pos).
Proof.
  intros total outer parent rest pos k K E ->. unfold unlock. rewrite skip_done. cbn [bind]. rewrite dropN_0. unfold correct_position. rewrite E. cbn [orb]. do 2 f_equal. lia.
Qed.
Definition or_n (a b : N) : N := if a =? 0 then b else a.
Definition or_b (a b : bytes) : bytes := if lenN a =? 0 then b else a.
Lemma cat_ids : forall a b, list_eqb a b = true -> forall c, list_eqb a c = list_eqb b c.
Proof. intros a b H c. apply list_eqb_eq in H. now subst. Qed.

Section READ.
Context {T : Type} (id3 : bytes -> res iff_error T) (join : T -> T -> T).
(** One chunk: the accumulator it leaves. *)
Definition step_acc (tags props : bool) (w : wchunk) (a : wav_acc T) (t : option T) : wav_acc T :=
  mkWa (if props then or_n (wa_stream a) (first_nonzero (map lenN (with_id ($"data") [w]))) else wa_stream a)
       (if props then or_n (wa_total a) (first_nonzero (map (fun b => le_dec (takeN 4 b)) (with_id ($"fact") [w]))) else wa_total a)
       (if props then or_b (wa_fmt a) (first_nonempty (with_id ($"fmt ") [w])) else wa_fmt a)
       (if tags then wa_info a ++ infos [w] else wa_info a) t.
Lemma wav_step : forall fuel m tags props file_len w total rem more pos a, wchunk_ok m w -> lenN (chunk_bytes false (to_chunk w)) <= rem ->
  (forall subs, w = WInfo subs -> (length subs < fuel)%nat) -> rem <= total -> file_len = total ->
  match join_if tags id3 join (wa_id3 a) (id3_contents [w]) with
  | Ok t => exists s, wav_chunk id3 join fuel m tags props file_len (mkChunk (fst (to_chunk w)) (lenN (snd (to_chunk w))) (total - rem)) (inside false total rem None (to_chunk w) more pos) a = Ok (step_acc tags props w a t, s) /\
      skip s = Ok (fresh total (rem - lenN (chunk_bytes false (to_chunk w))) None more (pos + lenN (chunk_bytes false (to_chunk w))))
  | Err e => wav_chunk id3 join fuel m tags props file_len (mkChunk (fst (to_chunk w)) (lenN (snd (to_chunk w))) (total - rem)) (inside false total rem None (to_chunk w) more pos) a = Err e
  | Panic => wav_chunk id3 join fuel m tags props file_len (mkChunk (fst (to_chunk w)) (lenN (snd (to_chunk w))) (total - rem)) (inside false total rem None (to_chunk w) more pos) a = Panic
  end.
Proof.
  intros fuel m tags props file_len w total rem more pos a [CO WO] R F RT ->. destruct w as [subs|[id c]].
  - (* an INFO list *)
    cbn [to_chunk fst snd] in *. destruct WO as [SO SR]. specialize (F subs eq_refl). set (ct := $"INFO" ++ body false subs) in *.
    assert (CL : lenN ct = 4 + lenN (body false subs)) by (unfold ct; rewrite lenN_app; reflexivity).
    assert (EV : N.even (lenN ct) = true) by (rewrite CL, N.even_add, body_even by auto; reflexivity).
    assert (PO : pad_of ct = []) by (unfold pad_of; now rewrite EV).
    assert (CB := chunk_bytes_len false _ CO). cbn [snd] in CB. unfold pad_len in CB. rewrite EV, N.add_0_r in CB. rewrite CB in R |- *.
    assert (J : join_if tags id3 join (wa_id3 a) (id3_contents [WInfo subs]) = Ok (wa_id3 a)) by (destruct tags; reflexivity). rewrite J. clear J.
    unfold wav_chunk. cbn [k_fourcc k_size]. change (list_eqb ($"LIST") ($"fmt ")) with false. change (list_eqb ($"LIST") ($"fact")) with false. change (list_eqb ($"LIST") ($"data")) with false. change (list_eqb ($"LIST") ($"LIST")) with true.
    cbn [andb]. destruct (N.ltb_spec (lenN ct) 4); [lia|].
    assert (RI := read_inside false total rem None ($"LIST", ct) more pos 4 CO ltac:(cbn [snd]; lia)). cbn [snd] in RI. rewrite RI. cbn [bind].
    assert (TI : takeN 4 ct = $"INFO") by (unfold ct; now rewrite takeN_app by reflexivity). assert (DI : dropN 4 ct = body false subs) by (unfold ct; now rewrite dropN_app by reflexivity).
    rewrite TI, DI, PO. cbn [app]. rewrite list_eqb_refl. cbn [negb orb]. destruct tags; cbn [negb].
    + unfold c_position. cbn [c_total c_rem]. destruct (N.ltb_spec total (total - (rem - 8 - 4) + (lenN ct - 4))); [lia|].
      cbn [lock bind]. erewrite (parse_chunks subs fuel m total _ more (pos + 8 + 4) (wa_info a) (lenN ct - 4) 0); try assumption; try lia. cbn [bind].
      rewrite unlock_end by (auto; lia). cbn [bind]. eexists. split.
      * unfold step_acc. cbn [with_id flat_map app map first_nonzero first_nonempty infos]. unfold or_n, or_b. do 3 f_equal; destruct props; auto.
        destruct (N.eqb_spec (wa_stream a) 0); congruence. destruct (N.eqb_spec (wa_total a) 0); congruence.
        destruct (N.eqb_spec (lenN (wa_fmt a)) 0) as [E|]; auto. now apply lenN_0 in E. now rewrite app_nil_r. now rewrite app_nil_r.
      * rewrite skip_done. unfold fresh. do 2 f_equal; lia.
    + eexists. split.
      * unfold step_acc. cbn [with_id flat_map app map first_nonzero first_nonempty infos]. unfold or_n, or_b. destruct a as [ast ato afm ain aid]. cbn [wa_stream wa_total wa_fmt wa_info wa_id3]. do 3 f_equal; destruct props; auto.
        destruct (N.eqb_spec ast 0); congruence. destruct (N.eqb_spec ato 0); congruence. destruct (N.eqb_spec (lenN afm) 0) as [E|]; auto. now apply lenN_0 in E.
      * assert (SR2 := skip_read false total rem None ($"LIST", ct) more pos 4 CO ltac:(cbn [snd]; lia) ltac:(rewrite CB; lia)). cbn [snd] in SR2. rewrite DI, PO, CB in SR2. exact SR2.
  - cbn [to_chunk] in *. destruct WO as (NI & LO & FA & IS). cbn [fst snd] in *.
    assert (SKI := skip_inside false total rem None (id, c) more pos CO R).
    assert (RD := fun n => read_inside false total rem None (id, c) more pos n CO). cbn [snd] in RD.
    assert (SKR := fun n L => skip_read false total rem None (id, c) more pos n CO L R). cbn [snd] in SKR.
    unfold wav_chunk. cbn [k_fourcc k_size].
    unfold step_acc, with_id, infos, id3_contents, id3_id. cbn [flat_map fst snd]. rewrite !app_nil_r.
    destruct a as [ast ato afm ain aid]. cbn [wa_stream wa_total wa_fmt wa_info wa_id3].
    assert (N0 : forall x, or_n x 0 = x) by (intro x; unfold or_n; destruct (N.eqb_spec x 0); congruence).
    assert (B0 : forall x, or_b x [] = x) by (intro x; unfold or_b; destruct (N.eqb_spec (lenN x) 0) as [E|]; auto; now apply lenN_0 in E).
    assert (PP : forall (A : Type) (x : A), (if props then x else x) = x) by (intros; now destruct props). assert (TT : forall (A : Type) (x : A), (if tags then x else x) = x) by (intros; now destruct tags).
    destruct (list_eqb id ($"fmt ")) eqn:E1.
    { rewrite !(cat_ids _ _ E1). change (list_eqb ($"fmt ") ($"data")) with false. change (list_eqb ($"fmt ") ($"fact")) with false. change (list_eqb ($"fmt ") ($"ID3 ")) with false. change (list_eqb ($"fmt ") ($"id3 ")) with false. change (list_eqb ($"fmt ") ($"LIST")) with false.
      cbn [orb andb map first_nonzero app]. unfold join_if. cbn [join_all]. rewrite TT. rewrite ?N0, ?PP, ?app_nil_r, ?TT.
      destruct props; cbn [andb first_nonempty].
      - unfold or_b. destruct (N.eqb_spec (lenN afm) 0) as [Z|Z].
        + rewrite RD by lia. cbn [bind]. eexists. split; [|apply (SKR (lenN c)); lia]. rewrite takeN_all by lia. do 3 f_equal. destruct (N.eqb_spec (lenN c) 0) as [E|]; auto. now apply lenN_0 in E.
        + eexists. split; [reflexivity|exact SKI].
      - eexists. split; [reflexivity|exact SKI]. }
    destruct (list_eqb id ($"fact")) eqn:E2.
    { rewrite !(cat_ids _ _ E2). change (list_eqb ($"fact") ($"data")) with false. change (list_eqb ($"fact") ($"ID3 ")) with false. change (list_eqb ($"fact") ($"id3 ")) with false. change (list_eqb ($"fact") ($"LIST")) with false.
      apply list_eqb_eq in E2. specialize (FA E2).
      cbn [orb andb map first_nonzero first_nonempty app]. unfold join_if. cbn [join_all]. rewrite TT. rewrite ?N0, ?B0, ?PP, ?app_nil_r, ?TT.
      destruct props; cbn [andb].
      - unfold or_n. destruct (N.eqb_spec ato 0) as [Z|Z].
        + rewrite RD by lia. cbn [bind]. eexists. split; [|apply (SKR 4); lia]. do 3 f_equal. destruct (N.eqb_spec (le_dec (takeN 4 c)) 0); auto.
        + eexists. split; [reflexivity|exact SKI].
      - eexists. split; [reflexivity|exact SKI]. }
    destruct (list_eqb id ($"data")) eqn:E3.
    { rewrite !(cat_ids _ _ E3). change (list_eqb ($"data") ($"ID3 ")) with false. change (list_eqb ($"data") ($"id3 ")) with false. change (list_eqb ($"data") ($"LIST")) with false.
      cbn [orb andb map first_nonzero first_nonempty app]. unfold join_if. cbn [join_all]. rewrite TT. rewrite ?N0, ?B0, ?PP, ?app_nil_r, ?TT.
      destruct props; cbn [andb].
      - unfold or_n. destruct (N.eqb_spec ast 0) as [Z|Z].
        + eexists. split; [|exact SKI]. do 3 f_equal. destruct (N.eqb_spec (lenN c) 0); auto.
        + eexists. split; [reflexivity|exact SKI].
      - eexists. split; [reflexivity|exact SKI]. }
    destruct (list_eqb id ($"LIST")) eqn:E4.
    { rewrite !(cat_ids _ _ E4). change (list_eqb ($"LIST") ($"ID3 ")) with false. change (list_eqb ($"LIST") ($"id3 ")) with false.
      unfold is_info in NI. cbn [fst snd] in NI. rewrite E4 in NI. cbn [andb] in NI. apply list_eqb_eq in E4. unfold list_ok in LO. cbn [fst snd] in LO. specialize (LO E4).
      cbn [orb andb map first_nonzero first_nonempty app]. unfold join_if. cbn [join_all]. rewrite TT. rewrite ?N0, ?B0, ?PP, ?app_nil_r, ?TT.
      destruct (N.ltb_spec (lenN c) 4); [lia|]. rewrite RD by lia. cbn [bind]. rewrite NI. cbn [negb orb]. eexists. split; [reflexivity|]. apply SKR. lia. }
    cbn [andb map first_nonzero first_nonempty app]. rewrite ?N0, ?B0, ?PP, ?app_nil_r, ?TT.
    destruct (list_eqb id ($"ID3 ") || list_eqb id ($"id3 ")) eqn:E5; cbn [andb].
    2:{ unfold join_if. cbn [join_all]. rewrite TT. eexists. split; [reflexivity|exact SKI]. }
    destruct tags; cbn [andb join_if].
    2:{ eexists. split; [reflexivity|exact SKI]. }
    unfold id3_chunk. rewrite RD by lia. cbn [bind]. rewrite takeN_all by lia. destruct (N.ltb_spec (lenN c) 10) as [S|S]; cbn [negb].
    + cbn [join_all]. destruct (is_strict m) eqn:SM. { unfold id3_id in IS. specialize (IS eq_refl E5). lia. }
      eexists. split; [reflexivity|]. apply SKR. lia.
    + cbn [join_all]. destruct (id3 c) as [t|e|]; cbn [bind]; auto. eexists. split; [reflexivity|]. apply SKR. lia.
Qed.

Definition all_acc (tags props : bool) (ws : list wchunk) (a : wav_acc T) (t : option T) : wav_acc T :=
  mkWa (if props then or_n (wa_stream a) (first_nonzero (map lenN (with_id ($"data") ws))) else wa_stream a)
       (if props then or_n (wa_total a) (first_nonzero (map (fun b => le_dec (takeN 4 b)) (with_id ($"fact") ws))) else wa_total a)
       (if props then or_b (wa_fmt a) (first_nonempty (with_id ($"fmt ") ws)) else wa_fmt a)
       (if tags then wa_info a ++ infos ws else wa_info a) t.
Lemma or_n_app : forall a l1 l2, or_n (or_n a (first_nonzero l1)) (first_nonzero l2) = or_n a (first_nonzero (l1 ++ l2)).
Proof.
  intros a l1 l2. unfold or_n. destruct (N.eqb_spec a 0) as [Z|Z]. 2:{ destruct (N.eqb_spec a 0); [contradiction|reflexivity]. }
  induction l1 as [|x l1 IH]; cbn [first_nonzero app]. reflexivity. destruct (N.eqb_spec x 0); auto. destruct (N.eqb_spec x 0); [contradiction|reflexivity].
Qed.
Lemma or_b_app : forall a l1 l2, or_b (or_b a (first_nonempty l1)) (first_nonempty l2) = or_b a (first_nonempty (l1 ++ l2)).
Proof.
  intros a l1 l2. unfold or_b. destruct (N.eqb_spec (lenN a) 0) as [Z|Z]. 2:{ destruct (N.eqb_spec (lenN a) 0); [contradiction|reflexivity]. }
  induction l1 as [|x l1 IH]; cbn [first_nonempty app]. reflexivity. destruct (N.eqb_spec (lenN x) 0); auto. destruct (N.eqb_spec (lenN x) 0); [contradiction|reflexivity].
Qed.
Lemma fm_cons : forall A B (f : A -> list B) x l, flat_map f (x :: l) = flat_map f [x] ++ flat_map f l.
Proof. intros. cbn [flat_map]. now rewrite app_nil_r. Qed.
Lemma step_all : forall tags props w ws a t1 t2, all_acc tags props ws (step_acc tags props w a t1) t2 = all_acc tags props (w :: ws) a t2.
Proof.
  intros. unfold all_acc, step_acc. cbn [wa_stream wa_total wa_fmt wa_info wa_id3]. unfold with_id, infos. rewrite !(fm_cons _ _ _ w ws), !map_app.
  destruct props, tags; rewrite ?or_n_app, ?or_b_app, <- ?app_assoc; reflexivity.
Qed.
Lemma join_app : forall l1 l2 t, join_all id3 join t (l1 ++ l2) = (let? x := join_all id3 join t l1 in join_all id3 join x l2).
Proof. induction l1 as [|b l1 IH]; intros; cbn [app join_all]. reflexivity. destruct (id3 b); cbn [bind]; auto. Qed.

Lemma wav_walk : forall ws fuel0 fuel m tags props file_len s total rem more pos a k, Forall (wchunk_ok m) ws ->
  skip s = Ok (fresh total rem None (body false (map to_chunk ws) ++ more) pos) ->
  rem = lenN (body false (map to_chunk ws)) + k -> k < 8 -> (length ws < fuel)%nat ->
  (forall subs, In (WInfo subs) ws -> (length subs < fuel0)%nat) -> rem <= total -> file_len = total ->
  wav_loop id3 join fuel0 fuel m tags props file_len s a =
  (let? t := join_if tags id3 join (wa_id3 a) (id3_contents ws) in
   Ok (all_acc tags props ws a t, fresh total k None more (pos + lenN (body false (map to_chunk ws))))).
Proof.
  induction ws as [|w ws IH]; intros fuel0 fuel m tags props file_len s total rem more pos a k OK SK R K F FI RT FL; (destruct fuel as [|fuel]; [cbn [length] in F; lia|]); cbn [wav_loop].
  - cbn [map body flat_map app] in *. rewrite lenN_nil in *. rewrite (next_none _ m s total rem None more pos SK) by lia. cbn [bind].
    assert (J : join_if tags id3 join (wa_id3 a) (id3_contents []) = Ok (wa_id3 a)) by (destruct tags; reflexivity). rewrite J. cbn [bind].
    unfold all_acc. cbn [with_id flat_map map first_nonzero first_nonempty infos]. destruct a as [ast ato afm ain aid]. cbn [wa_stream wa_total wa_fmt wa_info wa_id3].
    rewrite app_nil_r. unfold or_n, or_b. unfold fresh. do 2 f_equal. 2:{ f_equal; lia. } f_equal; try (now destruct tags); destruct props; auto.
    + destruct (N.eqb_spec ast 0); auto.
    + destruct (N.eqb_spec ato 0); auto.
    + destruct (N.eqb_spec (lenN afm) 0) as [E|]; auto. now apply lenN_0 in E.
  - inversion OK as [|? ? O1 O2]; subst. cbn [map] in *. rewrite body_cons, <- app_assoc in SK. rewrite body_cons, lenN_app in *.
    set (rem := lenN (chunk_bytes false (to_chunk w)) + lenN (body false (map to_chunk ws)) + k) in *.
    assert (R1 : lenN (chunk_bytes false (to_chunk w)) <= rem) by (unfold rem; lia).
    rewrite (next_at false m s total rem None (to_chunk w) _ pos SK) by (auto; apply O1). cbn [bind].
    assert (ST := wav_step fuel0 m tags props total w total rem (body false (map to_chunk ws) ++ more) pos a O1 R1 ltac:(intros subs ->; apply FI; now left) RT eq_refl).
    assert (JA : join_if tags id3 join (wa_id3 a) (id3_contents (w :: ws)) =
      (let? t := join_if tags id3 join (wa_id3 a) (id3_contents [w]) in join_if tags id3 join t (id3_contents ws))).
    { unfold join_if. destruct tags; [|reflexivity]. unfold id3_contents. rewrite (fm_cons _ _ _ w ws). apply join_app. }
    rewrite JA. destruct (join_if tags id3 join (wa_id3 a) (id3_contents [w])) as [t|e|]; cbn [bind]; [|rewrite ST; reflexivity|rewrite ST; reflexivity].
    destruct ST as (s' & E & SK'). rewrite E. cbn [bind].
    rewrite (IH fuel0 fuel m tags props total s' total (rem - lenN (chunk_bytes false (to_chunk w))) more (pos + lenN (chunk_bytes false (to_chunk w))) (step_acc tags props w a t) k O2 SK'); auto; try (unfold rem; lia).
    all: try (intros; apply FI; now right). all: try (cbn [length] in F; lia).
    unfold step_acc at 1. cbn [wa_id3]. destruct (join_if tags id3 join t (id3_contents ws)); cbn [bind]; auto. rewrite step_all. do 2 f_equal. f_equal. unfold rem. lia.
Qed.

Lemma wav_read_spec : forall m tags props ws junk, Forall (wchunk_ok m) ws -> lenN junk < 8 -> 4 + lenN (body false (map to_chunk ws)) < 2 ^ 32 ->
  wav_read id3 join m tags props (riff_file (map to_chunk ws) ++ junk) =
  (let? t := join_if tags id3 join None (id3_contents ws) in
   let? p := (if props then
     let? p := wav_properties (first_nonempty (with_id ($"fmt ") ws)) (first_nonzero (map (fun b => le_dec (takeN 4 b)) (with_id ($"fact") ws)))
                 (first_nonzero (map lenN (with_id ($"data") ws))) (lenN (riff_file (map to_chunk ws))) in Ok (Some p) else Ok None) in
   Ok (mkWf p (if tags then match infos ws with [] => None | i => Some i end else None) t)).
Proof.
  intros m tags props ws junk OK K L. unfold wav_read. rewrite verify_wav_ok by auto. cbn [bind]. rewrite riff_len.
  assert (CO : Forall chunk_ok (map to_chunk ws)). { apply Forall_map. eapply Forall_impl; [|exact OK]. intros w [H _]. exact H. }
  assert (C1 : forall c, In c (map to_chunk ws) -> (length (chunk_bytes false c) <= length (body false (map to_chunk ws)))%nat).
  { intros c I. apply in_split in I as (x & y & ->). rewrite body_app, body_cons, !app_length. lia. }
  set (rem := 12 + lenN (body false (map to_chunk ws)) + lenN junk - 12).
  rewrite (wav_walk ws _ _ m tags props rem (chunks_new (body false (map to_chunk ws) ++ junk) 12 rem) rem rem junk 12 _ (lenN junk) OK); auto.
  - cbn [wa_id3]. destruct (join_if tags id3 join None (id3_contents ws)); cbn [bind]; auto. unfold all_acc. cbn [wa_stream wa_total wa_fmt wa_info wa_id3 fresh c_pos app].
    assert (E : lenN (riff_file (map to_chunk ws)) = 12 + lenN (body false (map to_chunk ws))) by (rewrite <- (app_nil_r (riff_file _)), riff_len, lenN_nil; lia). rewrite E.
    unfold or_n, or_b. change (0 =? 0) with true. rewrite lenN_nil. change (0 =? 0) with true. cbn iota.
    destruct props; [|now destruct tags]. destruct (wav_properties _ _ _ _); cbn [bind]; auto. now destruct tags.
  - unfold rem. lia.
  - pose proof (body_count _ CO). rewrite map_length in *. rewrite riff_head, !app_length. lia.
  - intros subs I. rewrite Forall_forall in OK. assert (SO := OK _ I). destruct SO as (SO & SO1 & _). assert (I2 := in_map to_chunk _ _ I). specialize (C1 _ I2). cbn [to_chunk] in C1. unfold chunk_bytes in C1. cbn [fst snd] in C1. rewrite !app_length in C1.
    pose proof (body_count subs SO1). rewrite riff_head, !app_length. lia.
  - lia.
Qed.
End READ.
