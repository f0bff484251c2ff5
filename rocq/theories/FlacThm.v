(** Property theorems for FLAC files (C88-C94). *)
From Verif Require Import BaseLemmas StrLemmas TextSpec TextProof PictureProof PictureThm Id3v2HeaderProof Id3v2HeaderThm VorbisThm FlacMoveThm FlacSpec FlacModel FlacProof.

(** C88 *)
Theorem C88_block_roundtrip : forall b, b_ty b < 128 ->
  if lenN (b_content b) <? 2 ^ 24
  then exists e, block_write b = Ok e /\ lenN e = lenN (b_content b) + 4 /\
    forall want a rest, block_read want (a ++ e ++ rest) (lenN a) = Ok (mkBlock (b_ty b) (b_last b) (if want (b_ty b) then b_content b else []), lenN (a ++ e))
  else block_write b = Err FlTooMuch.
Proof.
  intros b T. destruct (N.ltb_spec (lenN (b_content b)) (2 ^ 24)).
  - rewrite block_write_blk by auto. eexists. split. reflexivity. split. apply blk_len. intros. rewrite block_read_blk by now split. reflexivity.
  - unfold block_write, MAX_CONTENT. change (2 ^ 24) with 16777216 in H. now replace (16777215 <? lenN (b_content b)) with true by lia.
Qed.
Print Assumptions C88_block_roundtrip.
Example C88_ex : block_write (mkBlock 6 true [7; 8]) = Ok [134; 0; 0; 2; 7; 8] /\
  block_read (fun _ => true) [9; 134; 0; 0; 2; 7; 8; 1] 1 = Ok (mkBlock 6 true [7; 8], 7).
Proof. vm_compute. auto. Qed.

(** ** Saving. The blocks of a file, in order, without comments and pictures: *)
Definition others (l : list (N * bytes)) : list (N * bytes) := filter (fun x => negb ((fst x =? 4) || (fst x =? 6))) l.
(** the blocks a tag is stored in *)
Definition comment_block (v : str) (items : list (str * str)) (cb : list (N * bytes)) : Prop :=
  items = [] /\ cb = [] \/ items <> [] /\ exists b, vc_dump (mkVc v items []) = Ok b /\ lenN b < 2 ^ 24 /\ cb = [(4, b)].
Definition picture_block (x : picture * pic_info) : N * bytes := (6, as_flac_bytes (fst x) (snd x) false).
(** the padding block: only if one is wanted and there is none yet *)
Definition padding_block (pad : option N) (l : list (N * bytes)) (old new : N) (pb : list (N * bytes)) : Prop :=
  match pad with
  | Some n => if existsb (fun x => fst x =? 1) l then pb = []
              else exists m, pb = [(1, repeat 0 (N.to_nat m))] /\ m = N.min (N.max (old - (new + 4)) n) (2 ^ 24 - 1)
  | None => pb = []
  end.
Definition size (l : list (N * bytes)) : N := sumN (map (fun x => 4 + lenN (snd x)) l).

Lemma others_stays : forall l, others l = filter stays l.
Proof. intros. unfold others, stays. apply filter_ext. intros. now rewrite negb_orb. Qed.
Lemma vendor_is_dump : forall v its b, vc_dump (mkVc v its []) = Ok b -> lenN b < 2 ^ 24 -> new_comments v its = Ok (mkBlock COMMENTS false b).
Proof.
  intros v its b H L. unfold vc_dump, create_metadata_packet in H. cbn [vc_items vc_pics vc_vendor create_pictures] in H. unfold new_comments.
  destruct (create_comments its) as [cs| |]; try discriminate. cbn [bind] in H. rewrite app_nil_r in H. destruct (U32_MAX <? lenN cs); try discriminate.
  rewrite app_nil_l, app_nil_r in H.
  assert (EB : b = vendor_bytes v ++ le_enc 4 (lenN cs) ++ flat_map comment_bytes cs) by congruence. rewrite <- EB. unfold MAX_CONTENT. change (2 ^ 24) with 16777216 in L.
  match goal with |- context [16777215 <? ?x] => replace (16777215 <? x) with false by lia end. reflexivity.
Qed.
Lemma picture_blocks_ok : forall ps, Forall (fun x => lenN (snd (picture_block x)) < 2 ^ 24) ps -> picture_blocks ps = Ok (map plain_block (map picture_block ps)).
Proof.
  induction ps as [|x ps IH]; intros F; auto. inversion F; subst. cbn [picture_blocks map]. unfold new_picture, MAX_CONTENT. cbn [picture_block snd] in H1.
  change (2 ^ 24) with 16777216 in H1. replace (16777215 <? lenN (as_flac_bytes (fst x) (snd x) false)) with false by lia. cbn [bind]. rewrite IH by auto. reflexivity.
Qed.
Lemma encode_tag_ok : forall v its ps cb, comment_block v its cb -> Forall (fun x => lenN (snd (picture_block x)) < 2 ^ 24) ps ->
  encode_tag v its ps = Ok (map plain_block (cb ++ map picture_block ps)) /\ Forall fits (cb ++ map picture_block ps).
Proof.
  intros v its ps cb C P. unfold encode_tag. rewrite picture_blocks_ok by auto.
  assert (PF : Forall fits (map picture_block ps)).
  { apply Forall_forall. intros y I. apply in_map_iff in I. destruct I as (x & <- & I). rewrite Forall_forall in P. split; [cbn; lia|now apply P]. }
  destruct C as [[-> ->]|(NE & b & D & L & ->)].
  - cbn [bind app]. auto.
  - destruct its as [|i its]; [congruence|]. rewrite (vendor_is_dump _ _ _ D L). cbn [bind app map]. split; auto. constructor; auto. split; auto. cbn. lia.
Qed.
Lemma block_len_size : forall l, sumN (map block_len (map plain_block l)) = size l.
Proof. unfold size. induction l; auto. cbn [map sumN]. rewrite IHl. reflexivity. Qed.
Lemma fits_metadata : forall l b, metadata l b -> Forall fits l.
Proof.
  induction l as [|x l IH]; intros b M; auto. apply metadata_inv in M. destruct M as [F M]. constructor; auto. destruct M as [[-> _]|(b' & M & _)]; auto. eapply IH; eauto.
Qed.
Lemma retained_ok : forall l v v', retained v l v' -> forall w, w_vendor w = v -> retained (w_vendor w) l v'.
Proof. intros. subst. auto. Qed.

Definition flac_bytes (pre B audio : bytes) : bytes := pre ++ $"fLaC" ++ B ++ audio.

Lemma verify_ok : forall pre info l B audio, metadata ((0, info) :: l) B ->
  exists last B', verify_flac (flac_bytes pre B audio) (lenN pre) = Ok (mkBlock 0 last info, lenN (pre ++ $"fLaC" ++ blk last (0, info))) /\
    B = blk last (0, info) ++ B' /\ (if last then l = [] /\ B' = [] else metadata l B').
Proof.
  intros pre info l B audio M. apply metadata_inv in M. destruct M as [F M].
  assert (RD : exists last rest, B = blk last (0, info) ++ rest /\ (if last then l = [] /\ rest = [] else metadata l rest)).
  { destruct M as [[-> ->]|(b' & M & ->)]. exists true, []. rewrite app_nil_r. auto. exists false, b'. auto. }
  destruct RD as (last & rest & -> & M'). exists last, rest. split; [|auto]. unfold verify_flac, flac_bytes. rewrite dropN_app by auto.
  rewrite read_exact_app by reflexivity. cbn [frd bind]. rewrite list_eqb_refl. cbn [negb].
  replace (lenN pre + 4) with (lenN (pre ++ $"fLaC")) by (rewrite lenN_app; reflexivity). rewrite <- app_assoc. rewrite (app_assoc pre).
  rewrite block_read_blk by auto. cbn [bind fst snd b_ty]. change (0 =? STREAMINFO) with true. cbn iota. rewrite <- app_assoc. reflexivity.
Qed.

Lemma rest_long : forall info l B audio, metadata ((0, info) :: l) B -> 34 <= lenN info -> 10 <= lenN (B ++ audio).
Proof. intros. apply metadata_len in H. destruct H as [H _]. rewrite lenN_app, H. cbn [map sumN snd]. lia. Qed.

Lemma write_reaches : forall pre info l B audio v v' , tag_prefix pre -> metadata ((0, info) :: l) B -> 34 <= lenN info -> retained v l v' ->
  let data := flac_bytes pre B audio in
  exists h t last e, find_id3v2 data 0 false None = Ok (h, t, lenN pre) /\ verify_flac data (lenN pre) = Ok (mkBlock 0 last info, e) /\
  write_loop (S (length data)) data e last (mkW [mkBlock STREAMINFO false info] v false false) =
  Ok (mkW (map plain_block ((0, info) :: others l)) v' (existsb (fun x => negb (stays x)) l) (existsb is_padding l), lenN (pre ++ $"fLaC" ++ B)).
Proof.
  intros pre info l B audio v v' P M I R data. pose proof (rest_long _ _ _ audio M I) as L.
  destruct (prefix_found pre P (B ++ audio) false L) as (h & t & E & _). destruct (verify_ok pre info l B audio M) as (last & B' & V & -> & M').
  exists h, t, last. eexists. split; [exact E|]. split; [exact V|]. rewrite others_stays. unfold data, flac_bytes.
  destruct last.
  - destruct M' as [-> ->]. inversion R; subst. rewrite app_nil_r. reflexivity.
  - pose proof (metadata_len _ _ M') as [_ ML]. 
    replace (pre ++ $"fLaC" ++ (blk false (0, info) ++ B') ++ audio) with ((pre ++ $"fLaC" ++ blk false (0, info)) ++ B' ++ audio) by now rewrite <- !app_assoc.
    rewrite (write_loop_ok l B' M' _ _ _ _ v').
    + cbn [w_blocks w_remove w_padding orb app map plain_block fst snd]. rewrite <- !app_assoc. reflexivity.
    + rewrite !app_length. lia.
    + exact R.
Qed.

(** C89. Saving keeps the stream information, every other block, what stands before the marker and the audio, and adds just the
    blocks of the tag (and of padding). *)
Theorem C89_save : forall pre info l B audio v v' items pics pad cb,
  tag_prefix pre -> metadata ((0, info) :: l) B -> 34 <= lenN info -> retained v l v' ->
  comment_block v' items cb -> Forall (fun x => lenN (snd (picture_block x)) < 2 ^ 24) pics ->
  (items <> [] \/ pics <> [] \/ exists x, In x l /\ (fst x = 4 \/ fst x = 6)) ->
  exists log B' pb, flac_write (flac_bytes pre B audio) v items pics pad = Ok log /\
    apply_log (flac_bytes pre B audio) log = flac_bytes pre B' audio /\
    metadata ((0, info) :: others l ++ cb ++ map picture_block pics ++ pb) B' /\
    padding_block pad l (lenN B) (size ((0, info) :: others l ++ cb ++ map picture_block pics)) pb.
Proof.
  intros pre info l B audio v v' items pics pad cb P M I R C PS DO.
  destruct (write_reaches pre info l B audio v v' P M I R) as (h & t & last & e & E1 & E2 & E3). cbn zeta in *.
  destruct (encode_tag_ok v' items pics cb C PS) as [ET FT].
  unfold flac_write. rewrite E1, E2. cbn [bind b_last b_content]. rewrite E3. cbn [bind w_remove w_vendor w_blocks w_padding]. rewrite ET. cbn [bind].
  assert (NB : forall A (x y : A), match items, pics, existsb (fun x => negb (stays x)) l with [], [], false => x | _, _, _ => y end = y).
  { intros. destruct items; auto. destruct pics; auto. destruct (existsb _ l) eqn:EX; auto. exfalso.
    destruct DO as [D|[D|(z & Z1 & Z2)]]; try congruence.
    assert (existsb (fun x => negb (stays x)) l = true); [|congruence]. apply existsb_exists. exists z. split; auto. unfold stays. destruct Z2 as [-> | ->]; reflexivity. }
  rewrite NB. clear NB. rewrite <- map_app.
  set (bs := ((0, info) :: others l) ++ cb ++ map picture_block pics) in *.
  assert (LB : lenN (pre ++ $"fLaC" ++ B) - (lenN pre + 4) = lenN B) by (rewrite !lenN_app; change (lenN ($"fLaC")) with 4; lia).
  rewrite LB. rewrite block_len_size. rewrite (N.sub_add_distr (lenN B) (size bs) 4) at 1 || idtac.
  assert (FB : Forall fits bs).
  { unfold bs. apply Forall_app. split; auto. pose proof (fits_metadata _ _ M) as F. inversion F; subst. constructor; auto. unfold others. apply Forall_forall. intros x X. apply filter_In in X. rewrite Forall_forall in H2. now apply H2. }
  set (m := fun n => N.min (N.max (lenN B - (size bs + 4)) n) (2 ^ 24 - 1)).
  assert (PB : exists pb, match pad, existsb is_padding l with
      | Some pref, false => map plain_block bs ++ [new_padding (N.min (N.max (lenN B - size bs - 4) pref) MAX_CONTENT)]
      | _, _ => map plain_block bs end = map plain_block (bs ++ pb) /\ padding_block pad l (lenN B) (size bs) pb /\ Forall fits pb).
  { unfold padding_block. destruct pad as [n|].
    - change (existsb (fun x : N * bytes => fst x =? 1) l) with (existsb is_padding l). destruct (existsb is_padding l).
      + exists []. rewrite app_nil_r. auto.
      + exists [(1, repeat 0 (N.to_nat (m n)))]. split; [|split; [exists (m n); auto|]].
        * rewrite map_app. f_equal. cbn [map]. unfold new_padding, plain_block. cbn [fst snd]. do 4 f_equal. unfold m, MAX_CONTENT. change (2 ^ 24 - 1) with 16777215. lia.
        * constructor; auto. split. cbn. lia. cbn [snd]. rewrite lenN_repeat. unfold m. change (2 ^ 24) with 16777216. lia.
    - exists []. rewrite app_nil_r. auto. }
  destruct PB as (pb & EQ & PB & PF). rewrite EQ.
  destruct (write_blocks_ok (bs ++ pb)) as (B' & WB & M'). { unfold bs. discriminate. } { now apply Forall_app. }
  rewrite WB. cbn [bind].
  destruct (C76_as_used (flac_bytes pre B audio) (lenN pre + 4) (lenN (pre ++ $"fLaC" ++ B)) B') as (log & LE & LA).
  { rewrite !lenN_app. change (lenN ($"fLaC")) with 4. lia. } { unfold flac_bytes. rewrite !lenN_app. lia. }
  rewrite LE. exists log, B', pb. split; auto. split.
  - rewrite LA. unfold spliced, flac_bytes. rewrite (app_assoc pre). rewrite takeN_app by (rewrite lenN_app; reflexivity).
    rewrite (app_assoc (pre ++ _) B audio). rewrite dropN_app by (rewrite <- app_assoc; reflexivity). now rewrite <- !app_assoc.
  - split; [|exact PB]. unfold bs in M'. rewrite <- !app_assoc in M'. exact M'.
Qed.
Print Assumptions C89_save.
(** When there is nothing to store and nothing to remove, the file is left alone. *)
Theorem C89_nothing : forall pre info l B audio v v' pad,
  tag_prefix pre -> metadata ((0, info) :: l) B -> 34 <= lenN info -> retained v l v' ->
  (forall x, In x l -> fst x <> 4 /\ fst x <> 6) -> flac_write (flac_bytes pre B audio) v [] [] pad = Ok [].
Proof.
  intros pre info l B audio v v' pad P M I R N.
  destruct (write_reaches pre info l B audio v v' P M I R) as (h & t & last & e & E1 & E2 & E3). cbn zeta in *.
  unfold flac_write. rewrite E1, E2. cbn [bind b_last b_content]. rewrite E3. cbn [bind w_remove].
  replace (existsb (fun x => negb (stays x)) l) with false; auto. symmetry. apply not_true_is_false. intro X. apply existsb_exists in X.
  destruct X as (x & A & B'). destruct (N x A). unfold stays in B'. replace (fst x =? 4) with false in B' by lia. replace (fst x =? 6) with false in B' by lia. discriminate.
Qed.
Print Assumptions C89_nothing.
Definition ex_info : bytes := [16; 0; 16; 0; 0; 0; 14; 0; 19; 20; 10; 196; 66; 240; 0; 0; 172; 68] ++ repeat 1 16.
Definition ex_old : list (N * bytes) := [(4, [2; 0; 0; 0; 118; 49; 0; 0; 0; 0]); (2, [9; 9]); (6, [1])].
Definition ex_B : bytes := [0; 0; 0; 34] ++ ex_info ++ [4; 0; 0; 10; 2; 0; 0; 0; 118; 49; 0; 0; 0; 0; 2; 0; 0; 2; 9; 9; 134; 0; 0; 1; 1].
Lemma ex_metadata : metadata ((0, ex_info) :: ex_old) ex_B.
Proof.
  unfold ex_old. change ex_B with ([0] ++ be_enc 3 (lenN ex_info) ++ ex_info ++ ([4] ++ be_enc 3 (lenN [2; 0; 0; 0; 118; 49; 0; 0; 0; 0]) ++ [2; 0; 0; 0; 118; 49; 0; 0; 0; 0] ++
     ([2] ++ be_enc 3 (lenN [9; 9]) ++ [9; 9] ++ ([6 + 128] ++ be_enc 3 (lenN [1]) ++ [1])))).
  repeat (apply metadata_next; [reflexivity|reflexivity|]). apply metadata_end; reflexivity.
Qed.
Example C89_ex : match flac_write (flac_bytes [] ex_B [7; 7; 7]) ($"mine") [($"TITLE", $"x")] [] (Some 4) with
  | Ok log => apply_log (flac_bytes [] ex_B [7; 7; 7]) log =
      $"fLaC" ++ [0; 0; 0; 34] ++ ex_info ++ [2; 0; 0; 2; 9; 9; 4; 0; 0; 21; 2; 0; 0; 0; 118; 49; 1; 0; 0; 0; 7; 0; 0; 0] ++ $"TITLE=x" ++ [129; 0; 0; 4; 0; 0; 0; 0; 7; 7; 7]
  | _ => False end.
Proof. vm_compute. reflexivity. Qed.

(** C90. What was saved is read back: the fields, then the pictures, with the vendor the file had before. *)
Theorem C90_roundtrip_partial : forall ok o pre info l B audio t pics pad v',
  (pre = [] \/ forall h c, ok h c = true) -> fo_tags o = true -> vo_cover (fo_vo o) = true ->
  tag_prefix pre -> metadata ((0, info) :: l) B -> 34 <= lenN info -> retained (vc_vendor t) l v' ->
  vc_ok (fo_vo o) (mkVc v' (vc_items t) []) -> (forall b, vc_dump (mkVc v' (vc_items t) []) = Ok b -> lenN b < 2 ^ 24) ->
  Forall (fun x => representable (fst x) /\ info_ok (snd x) /\ lenN (snd (picture_block x)) < 2 ^ 24) (vc_pics t ++ pics) ->
  exists log, flac_save (flac_bytes pre B audio) (Some t) pics pad = Ok log /\
    let new := apply_log (flac_bytes pre B audio) log in
    (lenN new < 2 ^ 61 ->
     exists f, flac_read ok o new = Ok f /\
       ff_tag f = (match vc_items t with [] => None | _ => Some (mkVc v' (vc_items t) []) end) /\ ff_pics f = vc_pics t ++ pics).
Proof.
  intros ok o pre info l B audio t pics pad v' OK T C P M I R V SZ PS. unfold flac_save. set (ps := vc_pics t ++ pics) in *.
  assert (CB : exists cb, comment_block v' (vc_items t) cb).
  { destruct (vc_items t) eqn:E. exists []. left. auto.
    destruct (C78_packet_roundtrip_partial (fo_vo o) _ [] false V) as (b & D & _). exists [(4, b)]. right. split. discriminate. exists b. split; [exact D|]. split; [|auto]. apply SZ. exact D. }
  destruct CB as (cb & CB).
  assert (RDALL : forall l' B' , metadata ((0, info) :: l') B' -> (exists k pb, l' = k ++ cb ++ map picture_block ps ++ pb /\ Forall (fun x => fst x <> 4 /\ fst x <> 6) (k ++ pb)) ->
    lenN (flac_bytes pre B' audio) < 2 ^ 61 ->
    exists f, flac_read ok o (flac_bytes pre B' audio) = Ok f /\ ff_tag f = (match vc_items t with [] => None | _ => Some (mkVc v' (vc_items t) []) end) /\ ff_pics f = ps).
  { intros l' B' M' (k & pb & -> & O) L61. unfold flac_read. rewrite T. pose proof (rest_long _ _ _ audio M' I) as L10.
    destruct (prefix_found pre P (B' ++ audio) true L10) as (h & tt' & E & HN). change (pre ++ $"fLaC" ++ B' ++ audio) with (flac_bytes pre B' audio) in E. rewrite E.
    assert (IDOK : (match h, tt' with Some h, Some c => if ok h c then Ok 0 else Err FlFind | _, _ => Ok 0 end) = @Ok flac_error N 0).
    { destruct h, tt'; auto. destruct OK as [OK|OK]. specialize (HN OK). discriminate. now rewrite OK. }
    rewrite IDOK. cbn [bind].
    destruct (verify_ok pre info _ B' audio M') as (last & B2 & VE & EB & M2). rewrite VE. cbn [bind b_last b_content].
    assert (E18 : lenN (pre ++ $"fLaC" ++ blk last (0, info)) - (lenN pre + 4) = lenN info + 4) by (rewrite !lenN_app, blk_len; change (lenN ($"fLaC")) with 4; cbn [snd]; lia).
    rewrite E18. replace (lenN info + 4 <? 18) with false by lia.
    set (f0 := mkFlac None [] fp_default). set (fin := mkFlac (match vc_items t with [] => None | _ => Some (mkVc v' (vc_items t) []) end) ps fp_default).
    apply Forall_app in O. destruct O as [O1 O2].
    assert (SEE : see o (k ++ cb ++ map picture_block ps ++ pb) f0 = Ok fin).
    { rewrite see_app. rewrite see_other by auto. cbn [bind]. rewrite see_app.
      assert (S1 : see o cb f0 = Ok (mkFlac (ff_tag fin) [] fp_default)).
      { destruct CB as [[IE ->]|(NE & b & D & LB & ->)]. unfold fin. rewrite IE. reflexivity.
        rewrite (see_comments o v' (vc_items t) b) by auto. unfold fin. destruct (vc_items t); congruence || reflexivity. }
      rewrite S1. cbn [bind]. unfold picture_block. rewrite see_app. rewrite see_pictures; auto.
      2: { apply Forall_forall. intros x X. rewrite Forall_forall in PS. destruct (PS x X) as (? & ? & ?). auto. }
      cbn [bind ff_tag ff_pics ff_props app]. now rewrite see_other. }
    assert (RB : exists pos, read_blocks (S (length (flac_bytes pre B' audio))) o (flac_bytes pre B' audio) (lenN (pre ++ $"fLaC" ++ blk last (0, info))) last f0 = Ok (fin, pos) /\ pos <= lenN (flac_bytes pre B' audio)).
    { destruct last.
      - destruct M2 as [EN ->]. rewrite EN in SEE. cbn [see] in SEE. replace fin with f0 by congruence. eexists. split. reflexivity. rewrite EB. unfold flac_bytes. rewrite !lenN_app. lia.
      - unfold flac_bytes. rewrite EB.
        replace (pre ++ $"fLaC" ++ (blk false (0, info) ++ B2) ++ audio) with ((pre ++ $"fLaC" ++ blk false (0, info)) ++ B2 ++ audio) by now rewrite <- !app_assoc.
        rewrite (read_blocks_see _ B2 M2). 2: { pose proof (metadata_len _ _ M2) as [_ ML]. rewrite !(app_length _ (B2 ++ audio)), !(app_length B2). lia. }
        rewrite SEE. cbn [bind]. eexists. split. reflexivity. rewrite !lenN_app. lia. }
    destruct RB as (pos & RB & LP). rewrite RB. cbn [bind]. destruct (fo_props o); cbn [negb].
    - replace (lenN (flac_bytes pre B' audio) <? pos) with false by lia.
      assert (PR : exists q, flac_read_properties info (lenN (flac_bytes pre B' audio) - pos) (lenN (flac_bytes pre B' audio)) = Ok q).
      { unfold flac_read_properties, read_be.
        assert (RE : forall n r, n <= lenN r -> exists a b, read_exact n r = Some (a, b) /\ lenN b = lenN r - n).
        { intros n r LN. destruct (read_exact n r) as [[a b]|] eqn:X. apply read_exact_spec in X. destruct X as [-> X]. exists a, b. split; auto. rewrite lenN_app. lia. apply read_exact_none in X. lia. }
        destruct (RE 4 info) as (a1 & r1 & X1 & L1); [lia|]. rewrite X1. cbn [frd bind].
        destruct (RE 6 r1) as (a2 & r2 & X2 & L2); [lia|]. rewrite X2. cbn [frd bind].
        destruct (RE 4 r2) as (a3 & r3 & X3 & L3); [lia|]. rewrite X3. cbn [frd bind].
        destruct (RE 4 r3) as (a4 & r4 & X4 & L4); [lia|]. rewrite X4. cbn [frd bind].
        destruct (RE 16 r4) as (a5 & r5 & X5 & L5); [lia|]. rewrite X5. cbn [frd bind].
        destruct (_ && _); [|eexists; reflexivity]. destruct (_ && _); [|eexists; reflexivity].
        match goal with |- context [U64_MAX <? ?x] => replace (U64_MAX <? x) with false by (unfold U64_MAX; change (2 ^ 61) with 2305843009213693952 in L61; lia) end.
        eexists; reflexivity. }
      destruct PR as (q & PR). rewrite PR. cbn [bind]. eexists. split. reflexivity. split; reflexivity.
    - eexists. split. reflexivity. split; reflexivity. }
  assert (PSF : Forall (fun x => lenN (snd (picture_block x)) < 2 ^ 24) ps).
  { apply Forall_forall. intros x X. rewrite Forall_forall in PS. destruct (PS x X) as (? & ? & ?). auto. }
  assert (DEC : (vc_items t <> [] \/ ps <> [] \/ exists x, In x l /\ (fst x = 4 \/ fst x = 6)) \/ (vc_items t = [] /\ ps = [] /\ forall x, In x l -> fst x <> 4 /\ fst x <> 6)).
  { destruct (vc_items t); [|left; left; discriminate]. destruct ps; [|left; right; left; discriminate].
    destruct (existsb (fun x => negb (stays x)) l) eqn:EX.
    - left. right. right. apply existsb_exists in EX. destruct EX as (x & X1 & X2). exists x. split; auto. unfold stays in X2. rewrite negb_andb, !negb_involutive in X2. lia.
    - right. repeat split; auto; intro X; assert (Q : existsb (fun x => negb (stays x)) l = true); try congruence; apply existsb_exists; exists x; split; auto; unfold stays; rewrite X; reflexivity. }
  destruct DEC as [DO|(E1 & E2 & E3)].
  - destruct (C89_save pre info l B audio (vc_vendor t) v' (vc_items t) ps pad cb P M I R CB PSF DO) as (log & B' & pb & W & A & M' & PB).
    exists log. split; [exact W|]. cbn zeta. rewrite A. intro L61. apply (RDALL _ _ M'); auto. exists (others l), pb. split; auto. apply Forall_app. split.
    + apply Forall_forall. intros x X. apply filter_In in X. destruct X as [_ X]. rewrite negb_orb in X. lia.
    + unfold padding_block in PB. destruct pad as [n|]; [|subst; auto]. destruct (existsb _ l); [subst; auto|]. destruct PB as (m & -> & _). constructor; auto. cbn. lia.
  - rewrite E1, E2 in *. exists []. split; [eapply C89_nothing; eauto|]. cbn zeta. change (apply_log (flac_bytes pre B audio) []) with (flac_bytes pre B audio). intro L61.
    apply (RDALL _ _ M); auto. exists l, []. destruct CB as [[_ ->]|[CB _]]; [|congruence]. cbn [map app]. rewrite app_nil_r. split; auto. now apply Forall_forall.
Qed.
Print Assumptions C90_roundtrip_partial.
Definition ex_opts : fopts := mkFo (mkVo true true Strict) true true.
Definition ex_cover : picture * pic_info := (mkPic PCoverFront (Some Png) None [1; 2; 3], mkInfo 1 2 3 4).
Example C90_ex : match flac_save (flac_bytes [] ex_B [7; 7; 7]) (Some (mkVc ($"mine") [($"TITLE", $"x")] [])) [ex_cover] (Some 4) with
  | Ok log => match flac_read (fun _ _ => true) ex_opts (apply_log (flac_bytes [] ex_B [7; 7; 7]) log) with
      | Ok f => ff_tag f = Some (mkVc ($"v1") [($"TITLE", $"x")] []) /\ ff_pics f = [ex_cover] /\ fp_rate (ff_props f) = 44100 /\ fp_duration (ff_props f) = 1000 | _ => False end
  | _ => False end.
Proof. vm_compute. auto. Qed.
(** Finding: the vendor string of the tag is never written when the file has comments. *)
Theorem C90_vendor_refuted : ~ (forall data t pad log, flac_save data (Some t) [] pad = Ok log ->
  match flac_read (fun _ _ => true) ex_opts (apply_log data log) with Ok f => option_map vc_vendor (ff_tag f) = Some (vc_vendor t) | _ => True end).
Proof.
  intro H. remember (flac_save (flac_bytes [] ex_B [7; 7; 7]) (Some (mkVc ($"mine") [($"TITLE", $"x")] [])) [] None) as r eqn:E. vm_compute in E.
  destruct r as [log| |]; try discriminate. specialize (H (flac_bytes [] ex_B [7; 7; 7]) (mkVc ($"mine") [($"TITLE", $"x")] []) None log).
  injection E as ->. specialize (H ltac:(vm_compute; reflexivity)). vm_compute in H. discriminate.
Qed.
Print Assumptions C90_vendor_refuted.

(** C92. Finding: a file whose comments and pictures were all taken away keeps those on disk when saved. *)
(** Saving a file through the generic tagged file has the same effect as saving it as it was read. *)
Theorem C90_tagged_file : forall f data pad, flac_save data (tagged_vc f) [] pad = flac_save data (ff_tag f) (ff_pics f) pad.
Proof.
  intros [[t|] ps pr] data pad; unfold tagged_vc; cbn [ff_tag ff_pics flac_save vc_vendor vc_items vc_pics].
  - now rewrite app_nil_r.
  - destruct ps; cbn [flac_save vc_vendor vc_items vc_pics]; [reflexivity|]. now rewrite app_nil_r.
Qed.
Print Assumptions C90_tagged_file.
Theorem C92_removed_is_saved_refuted : ~ (forall data pad log, flac_save data None [] pad = Ok log ->
  match flac_read (fun _ _ => true) ex_opts (apply_log data log) with Ok f => ff_tag f = None /\ ff_pics f = [] | _ => True end).
Proof.
  intro H. set (data := flac_bytes [] ([0; 0; 0; 34] ++ ex_info ++ [132; 0; 0; 10; 2; 0; 0; 0; 118; 49; 0; 0; 0; 0]) []). specialize (H data None [] eq_refl). vm_compute in H. destruct H. discriminate.
Qed.
Print Assumptions C92_removed_is_saved_refuted.
(** With an emptied tag it works. *)
Theorem C92_empty_tag_clears_partial : forall ok o pre info l B audio pad v v',
  (pre = [] \/ forall h c, ok h c = true) -> fo_tags o = true -> vo_cover (fo_vo o) = true ->
  tag_prefix pre -> metadata ((0, info) :: l) B -> 34 <= lenN info -> retained v l v' -> vc_ok (fo_vo o) (mkVc v' [] []) -> lenN (utf8_enc v') < 2 ^ 23 ->
  exists log, flac_save (flac_bytes pre B audio) (Some (mkVc v [] [])) [] pad = Ok log /\
    (lenN (apply_log (flac_bytes pre B audio) log) < 2 ^ 61 ->
     exists f, flac_read ok o (apply_log (flac_bytes pre B audio) log) = Ok f /\ ff_tag f = None /\ ff_pics f = []).
Proof.
  intros. destruct (C90_roundtrip_partial ok o pre info l B audio (mkVc v [] []) [] pad v') as (log & E & Q); auto.
  - cbn [vc_items]. intros b D. unfold vc_dump, create_metadata_packet in D. cbn [vc_items vc_pics vc_vendor create_comments create_pictures bind] in D.
    change (U32_MAX <? lenN ([] ++ [])) with false in D. cbn iota in D. apply (f_equal (fun r => match r with Ok x => lenN x | _ => 0 end)) in D. cbv beta iota in D. rewrite <- D. unfold vendor_bytes.
    change (@nil bytes ++ @nil bytes) with (@nil bytes). cbn [flat_map]. rewrite !lenN_app, !le_enc_len. change (lenN (@nil N)) with 0. change (2 ^ 23) with 8388608 in *. change (2 ^ 24) with 16777216. lia.
  - constructor.
  - exists log. split; auto.
Qed.
Print Assumptions C92_empty_tag_clears_partial.
Example C92_ex : match flac_save (flac_bytes [] ex_B [7; 7; 7]) (Some (mkVc [] [] [])) [] None with
  | Ok log => apply_log (flac_bytes [] ex_B [7; 7; 7]) log = $"fLaC" ++ [0; 0; 0; 34] ++ ex_info ++ [130; 0; 0; 2; 9; 9; 7; 7; 7] | _ => False end.
Proof. vm_compute. reflexivity. Qed.

(** C93. When the new metadata with the wanted padding fits into the old, the length of the file stays and the audio is where it was. *)
Theorem C93_padding_absorbs : forall pre info l B audio v v' items pics n cb,
  tag_prefix pre -> metadata ((0, info) :: l) B -> 34 <= lenN info -> retained v l v' ->
  comment_block v' items cb -> Forall (fun x => lenN (snd (picture_block x)) < 2 ^ 24) pics ->
  (items <> [] \/ pics <> [] \/ exists x, In x l /\ (fst x = 4 \/ fst x = 6)) ->
  (forall x, In x l -> fst x <> 1) ->
  let need := size ((0, info) :: others l ++ cb ++ map picture_block pics) in
  need + 4 + n <= lenN B -> lenN B - need - 4 < 2 ^ 24 ->
  exists log B', flac_write (flac_bytes pre B audio) v items pics (Some n) = Ok log /\
    apply_log (flac_bytes pre B audio) log = flac_bytes pre B' audio /\ lenN B' = lenN B.
Proof.
  intros pre info l B audio v v' items pics n cb P M I R C PS DO NP need L1 L2.
  destruct (C89_save pre info l B audio v v' items pics (Some n) cb P M I R C PS DO) as (log & B' & pb & W & A & M' & PB).
  exists log, B'. split; auto. split; auto. unfold padding_block in PB. replace (existsb (fun x => fst x =? 1) l) with false in PB.
  2: { symmetry. apply not_true_is_false. intro X. apply existsb_exists in X. destruct X as (x & X1 & X2). apply (NP x X1). now apply N.eqb_eq. }
  destruct PB as (m & -> & E). apply metadata_len in M'. destruct M' as [M' _]. rewrite M'. fold need in E.
  replace ((0, info) :: others l ++ cb ++ map picture_block pics ++ [(1, repeat 0 (N.to_nat m))]) with (((0, info) :: others l ++ cb ++ map picture_block pics) ++ [(1, repeat 0 (N.to_nat m))]) by (cbn [app]; now rewrite <- !app_assoc).
  rewrite map_app, sumN_app. cbn [map sumN snd]. rewrite lenN_repeat. unfold need, size in *. cbn [map sumN] in *. change (2 ^ 24 - 1) with 16777215 in *. change (2 ^ 24) with 16777216 in *. cbn [snd] in *. lia.
Qed.
Print Assumptions C93_padding_absorbs.
Example C93_ex : match flac_write (flac_bytes [] ex_B [7; 7; 7]) [] [] [] (Some 1) with
  | Ok log => apply_log (flac_bytes [] ex_B [7; 7; 7]) log = $"fLaC" ++ [0; 0; 0; 34] ++ ex_info ++ [2; 0; 0; 2; 9; 9; 129; 0; 0; 15] ++ repeat 0 15 ++ [7; 7; 7] | _ => False end.
Proof. vm_compute. reflexivity. Qed.

(** C91. Reading panics only for COVERART fields with tiny images (C80). *)
Lemma find_total : forall data start read, find_id3v2 data start read None <> Panic.
Proof.
  intros. unfold find_id3v2. pose proof (C34_sizes (dropN start data)) as T. destruct (header_parse (dropN start data)) as [[h|e|] rem]; cbn [fst] in T.
  - destruct read; cbn [bind]; [|discriminate]. destruct (read_exact (h_size h) rem) as [[? ?]|]; discriminate.
  - destruct (seek_back _ _); discriminate.
  - tauto.
Qed.
Lemma block_read_part : forall want data pos, block_read want data pos <> Panic /\
  forall b e, block_read want data pos = Ok (b, e) -> exists x y, data = x ++ b_content b ++ y.
Proof.
  intros. unfold block_read. destruct (dropN pos data) as [|byte r] eqn:D. split; [|intros]; discriminate. cbn [read_u8 frd bind].
  unfold read_be. destruct (read_exact 3 r) as [[sz r2]|] eqn:E; cbn [frd bind]; [|split; [|intros]; discriminate]. apply read_exact_spec in E. destruct E as [-> _].
  destruct (want (N.land byte 0x7F)).
  - destruct (read_exact (be_dec sz) r2) as [[c r3]|] eqn:E; cbn [frd bind]; [|split; [|intros]; discriminate]. apply read_exact_spec in E. destruct E as [-> _].
    split. discriminate. intros b e X. injection X as <- _. cbn [b_content]. exists (takeN pos data ++ byte :: sz), r3.
    rewrite <- (takeN_dropN _ pos data) at 1. rewrite D. rewrite <- !app_assoc. cbn [app]. reflexivity.
  - cbn [bind]. split. discriminate. intros b e X. injection X as <- _. exists data, []. now rewrite app_nil_r.
Qed.
Definition has_tiny_cover (data : bytes) : Prop := exists pre c post, data = pre ++ c ++ post /\ tiny_cover c.
Lemma read_into_panic : forall o b f, read_block_into o b f = Panic -> fo_tags o = true /\ vo_cover (fo_vo o) = true /\ has_tiny_cover (b_content b).
Proof.
  intros o b f H. unfold read_block_into in H. destruct (b_content b) as [|x c] eqn:E; [discriminate|]. destruct (_ && fo_tags o) eqn:T1.
  - match type of H with (if ?c then _ else _) = _ => destruct c; [discriminate|] end. destruct (read_comments _ _ _) eqn:R; try discriminate. apply C80_read_total_partial in R. destruct R as [A (p & q & s & B)].
    apply andb_true_iff in T1. split; [tauto|]. split; auto. now exists p, q, s.
  - match type of H with (if ?c then _ else _) = _ => destruct c; [|discriminate] end. destruct (from_flac_bytes _ _ _) eqn:R; try discriminate. destruct (is_strict _); discriminate. now apply C57_flac_picture_total in R.
Qed.
Lemma read_blocks_panic : forall fuel o data pos last f, read_blocks fuel o data pos last f = Panic -> fo_tags o = true /\ vo_cover (fo_vo o) = true /\ has_tiny_cover data.
Proof.
  induction fuel as [|fuel IH]; intros o data pos last f H; cbn [read_blocks] in H; destruct last; try discriminate.
  destruct (block_read_part (want_read o) data pos) as [NP PART]. destruct (block_read (want_read o) data pos) as [[b e]| |]; cbn [bind] in H; try discriminate; try tauto.
  destruct (read_block_into o b f) eqn:R; cbn [bind] in H; try discriminate. eauto. apply read_into_panic in R. destruct R as (A & B & (p & c & q & E & T)).
  split; auto. split; auto. destruct (PART b e eq_refl) as (x & y & ->). exists (x ++ p), c, (q ++ y). split; auto. rewrite E, <- !app_assoc. reflexivity.
Qed.
Lemma props_total : forall info s f, f < 2 ^ 61 -> flac_read_properties info s f <> Panic.
Proof.
  intros info s f L. unfold flac_read_properties.
  repeat match goal with |- context [frd (read_be ?n ?r)] => let E := fresh in destruct (read_be n r) as [[? ?]|] eqn:E; cbn [frd bind]; [|discriminate] end.
  destruct (_ && _); [|discriminate]. destruct (_ && _); [|discriminate].
  replace (U64_MAX <? f * 8) with false by (unfold U64_MAX; change (2 ^ 61) with 2305843009213693952 in L; lia). discriminate.
Qed.
Lemma verify_total : forall data p, verify_flac data p <> Panic.
Proof.
  intros. unfold verify_flac. destruct (read_exact 4 (dropN p data)) as [[m r]|]; cbn [frd bind]; [|discriminate]. destruct (negb _); [discriminate|].
  destruct (block_read_part (fun _ => true) data (p + 4)) as [NP _]. destruct (block_read _ data (p + 4)) as [[b e]| |]; cbn [bind]; try discriminate; try tauto. destruct (_ =? _); discriminate.
Qed.
Theorem C91_read_total_partial : forall ok o data, lenN data < 2 ^ 61 -> flac_read ok o data = Panic ->
  fo_tags o = true /\ vo_cover (fo_vo o) = true /\ has_tiny_cover data.
Proof.
  intros ok o data L H. unfold flac_read in H. pose proof (find_total data 0 (fo_tags o)) as F. destruct (find_id3v2 data 0 (fo_tags o) None) as [[[h c] p]| |]; try discriminate; try congruence.
  destruct (match h, c with Some h0, Some c0 => if ok h0 c0 then Ok 0 else Err FlFind | _, _ => Ok 0 end) eqn:X; cbn [bind] in H; try discriminate.
  2: { destruct h as [hh|], c as [cc|]; try discriminate. destruct (ok hh cc); discriminate. }
  pose proof (verify_total data p). destruct (verify_flac data p) as [[info e]| |]; cbn [bind] in H; try discriminate; try congruence.
  destruct (_ <? 18); [discriminate|]. destruct (read_blocks _ o data e (b_last info) _) as [[f pos]| |] eqn:R; cbn [bind] in H; try discriminate.
  - destruct (negb _); [discriminate|]. destruct (_ <? pos); [discriminate|].
    pose proof (props_total (b_content info) (lenN data - pos) (lenN data) L). destruct (flac_read_properties _ _ _); cbn [bind] in H; congruence.
  - now apply read_blocks_panic in R.
Qed.
Print Assumptions C91_read_total_partial.
Definition ex_tiny : bytes := flac_bytes [] ([0; 0; 0; 34] ++ ex_info ++ [132; 0; 0; 25; 0; 0; 0; 0; 1; 0; 0; 0; 13; 0; 0; 0] ++ $"COVERART=QUJD") [].
Theorem C91_read_total_refuted : ~ (forall ok o data, lenN data < 2 ^ 61 -> flac_read ok o data <> Panic).
Proof. intro H. apply (H (fun _ _ => true) ex_opts ex_tiny). vm_compute; reflexivity. vm_compute. reflexivity. Qed.
Print Assumptions C91_read_total_refuted.
(** Saving does not panic. *)
Lemma create_comments_len : forall l cs, create_comments l = Ok cs -> lenN cs <= lenN l.
Proof.
  induction l as [|[k v] l IH]; intros cs H; cbn [create_comments] in H. injection H as <-. reflexivity. destruct v.
  - apply IH in H. rewrite lenN_cons. lia.
  - destruct (U32_MAX <? _); [discriminate|]. destruct (create_comments l) eqn:E; cbn [bind] in H; try discriminate. injection H as <-. specialize (IH _ eq_refl). rewrite !lenN_cons. lia.
Qed.
Lemma create_comments_total : forall l, create_comments l <> Panic.
Proof.
  induction l as [|[k v] l IH]; cbn [create_comments]. discriminate. destruct v; auto. destruct (U32_MAX <? _); [discriminate|]. destruct (create_comments l); cbn [bind]; try discriminate; auto.
Qed.
Lemma write_loop_total : forall fuel data pos last w, write_loop fuel data pos last w <> Panic.
Proof.
  induction fuel as [|fuel IH]; intros; cbn [write_loop]; destruct last; try discriminate.
  destruct (block_read_part (fun ty => negb (ty =? PICTURE)) data pos) as [NP _]. destruct (block_read _ data pos) as [[b e]| |]; cbn [bind]; try discriminate; try tauto.
  destruct (b_ty b =? PICTURE); [apply IH|]. destruct (b_ty b =? COMMENTS); [|apply IH]. unfold block_vendor.
  destruct (read_le 4 (b_content b)) as [[n r]|]; cbn [frd bind]; [|discriminate]. destruct (lenN r <? n); [discriminate|].
  destruct (read_exact n r) as [[v r']|]; cbn [frd bind]; [|discriminate]. apply IH.
Qed.
Theorem C91_write_total : forall data v items pics pad, lenN items < 2 ^ 32 -> flac_write data v items pics pad <> Panic.
Proof.
  intros data v items pics pad L. unfold flac_write. pose proof (find_total data 0 false). destruct (find_id3v2 data 0 false None) as [[[h c] p]| |]; try discriminate; try congruence.
  pose proof (verify_total data p). destruct (verify_flac data p) as [[info e]| |]; cbn [bind]; try discriminate; try congruence.
  pose proof (write_loop_total (S (length data)) data e (b_last info) (mkW [mkBlock STREAMINFO false (b_content info)] v false false)) as WT.
  destruct (write_loop _ data e (b_last info) _) as [[w stop]| |]; cbn [bind]; try discriminate; try congruence.
  assert (REST : (let? m := encode_tag (w_vendor w) items pics in
          let bs := w_blocks w ++ m in
          let bs := (match pad, w_padding w with
                     | Some pref, false => bs ++ [new_padding (N.min (N.max (stop - (p + 4) - sumN (map block_len bs) - 4) pref) MAX_CONTENT)]
                     | _, _ => bs
                     end) in
          let? new := write_blocks bs in
          match replace_range data (p + 4) stop new with Ok log => Ok log | Err _ => Err FlMove | Panic => Panic end) <> Panic).
  2: { destruct items; [|exact REST]. destruct pics; [|exact REST]. destruct (w_remove w); [exact REST|discriminate]. }
  assert (ET : encode_tag (w_vendor w) items pics <> Panic).
  { unfold encode_tag.
    assert (PB : picture_blocks pics <> Panic).
    { clear. induction pics; cbn [picture_blocks]. discriminate. unfold new_picture. destruct (MAX_CONTENT <? _); cbn [bind]. discriminate. destruct (picture_blocks pics); cbn [bind]; try discriminate. auto. }
    assert (CT : new_comments (w_vendor w) items <> Panic).
    { unfold new_comments. destruct (create_comments items) as [cs| |] eqn:CC; try discriminate. apply create_comments_len in CC.
      replace (U32_MAX <? lenN cs) with false by (unfold U32_MAX; change (2 ^ 32) with 4294967296 in L; lia). destruct (MAX_CONTENT <? _); discriminate. now apply create_comments_total in CC. }
    destruct items; cbn [bind]; [|destruct (new_comments _ _); cbn [bind]; try discriminate; try congruence]; destruct (picture_blocks pics); cbn [bind]; try discriminate; congruence. }
  destruct (encode_tag _ items pics) as [m| |]; cbn [bind]; try discriminate; try congruence. cbn zeta.
  assert (WB : forall l, write_blocks l <> Panic).
  { induction l; cbn [write_blocks]. discriminate. unfold block_write. cbn [b_content]. destruct (MAX_CONTENT <? _); cbn [bind]. discriminate. destruct (write_blocks l); cbn [bind]; try discriminate. auto. }
  match goal with |- context [write_blocks ?l] => specialize (WB l); destruct (write_blocks l) as [new| |] end; cbn [bind]; try discriminate; try congruence.
  pose proof (C76_replace_range MOVE_BUFFER_SIZE data (p + 4) stop new eq_refl) as R. destruct ((p + 4 <=? stop) && (stop <=? lenN data)).
  - destruct R as (log & R & _). unfold replace_range. rewrite R. discriminate.
  - unfold replace_range. rewrite R. discriminate.
Qed.
Print Assumptions C91_write_total.
Example C91_ex : flac_write ($"fLaC" ++ [4; 0; 0; 0] ++ repeat 0 10) [] [] [] None = Err FlNoInfo /\ flac_write (flac_bytes [] ([0; 0; 0; 34] ++ ex_info ++ [132; 0; 0; 4; 9; 0; 0; 0]) []) [] [] [] None = Err FlSize /\
  flac_read (fun _ _ => true) ex_opts ($"fLaC" ++ [128; 0; 0; 9] ++ repeat 0 9) = Err FlSize.
Proof. vm_compute. auto. Qed.

(** C94. The fields of STREAMINFO: ten bytes of sizes, 20 bits of sample rate, 3 of channels less one, 5 of bits per sample less
    one, 36 of samples, the MD5 sum. *)
Theorem C94_properties : forall sizes rate ch depth total md5 tail stream file, lenN sizes = 10 -> lenN md5 = 16 ->
  rate < 2 ^ 20 -> 1 <= ch <= 8 -> 1 <= depth <= 32 -> total < 2 ^ 36 -> file < 2 ^ 61 ->
  exists d a b, flac_read_properties (sizes ++ be_enc 4 (rate * 2 ^ 12 + (ch - 1) * 2 ^ 9 + (depth - 1) * 2 ^ 4 + total / 2 ^ 32) ++ be_enc 4 (total mod 2 ^ 32) ++ md5 ++ tail) stream file
    = Ok (mkFp d a b rate depth ch (be_dec md5)) /\
  (rate <> 0 -> rate * d <= total * 1000 < rate * (d + 1)) /\ (rate = 0 -> d = 0) /\
  (d <> 0 -> stream <> 0 -> file <> 0 -> a = (file * 8 / d) mod 2 ^ 32 /\ b = (stream * 8 / d) mod 2 ^ 32).
Proof.
  intros sizes rate ch depth total md5 tail stream file LS LM R C D T F. unfold flac_read_properties.
  destruct (read_exact 4 sizes) as [[s1 s2]|] eqn:E; [|apply read_exact_none in E; lia]. apply read_exact_spec in E. destruct E as [-> L1]. rewrite lenN_app in LS.
  rewrite <- !app_assoc. unfold read_be at 1. rewrite read_exact_app by auto. cbn [frd bind]. unfold read_be at 1. rewrite read_exact_app by lia. cbn [frd bind].
  change (2 ^ 20) with 1048576 in R. change (2 ^ 36) with 68719476736 in T. change (2 ^ 32) with 4294967296. change (2 ^ 12) with 4096. change (2 ^ 9) with 512. change (2 ^ 4) with 16.
  set (q := total / 4294967296). assert (Q : q < 16) by (apply N.div_lt_upper_bound; lia).
  set (i := rate * 4096 + (ch - 1) * 512 + (depth - 1) * 16 + q). assert (I : i < 4294967296) by (unfold i; lia).
  rewrite read_be_app by (auto; exact I). cbn [frd bind].
  assert (MB : total mod 4294967296 < 4294967296) by (apply N.mod_lt; lia).
  rewrite read_be_app by (auto; exact MB). cbn [frd bind]. unfold read_be. rewrite read_exact_app by auto. cbn [frd bind].
  assert (B1 : N.shiftr i 12 = rate). { rewrite N.shiftr_div_pow2. change (2 ^ 12) with 4096. symmetry. apply (N.div_unique _ _ _ ((ch - 1) * 512 + (depth - 1) * 16 + q)); unfold i; lia. }
  assert (B2 : N.land (N.shiftr i 4) 31 + 1 = depth).
  { rewrite N.shiftr_div_pow2. change 31 with (N.ones 5). rewrite N.land_ones. change (2 ^ 4) with 16. change (2 ^ 5) with 32.
    replace (i / 16) with (rate * 256 + (ch - 1) * 32 + (depth - 1)) by (apply (N.div_unique _ _ _ q); unfold i; lia).
    replace ((rate * 256 + (ch - 1) * 32 + (depth - 1)) mod 32) with (depth - 1); [lia|]. apply (N.mod_unique _ _ (rate * 8 + (ch - 1))); lia. }
  assert (B3 : N.land (N.shiftr i 9) 7 + 1 = ch).
  { rewrite N.shiftr_div_pow2. change 7 with (N.ones 3). rewrite N.land_ones. change (2 ^ 9) with 512. change (2 ^ 3) with 8.
    replace (i / 512) with (rate * 8 + (ch - 1)) by (apply (N.div_unique _ _ _ ((depth - 1) * 16 + q)); unfold i; lia).
    replace ((rate * 8 + (ch - 1)) mod 8) with (ch - 1); [lia|]. apply (N.mod_unique _ _ rate); lia. }
  assert (B4 : N.lor (N.shiftl (N.land i 15) 32) (total mod 4294967296) = total).
  { change 15 with (N.ones 4). rewrite N.land_ones. change (2 ^ 4) with 16.
    replace (i mod 16) with q by (apply (N.mod_unique _ _ (rate * 256 + (ch - 1) * 32 + (depth - 1))); unfold i; lia).
    rewrite N.shiftl_mul_pow2. rewrite N.lor_comm. rewrite lor_add by exact MB. change (2 ^ 32) with 4294967296. unfold q. rewrite (N.div_mod total 4294967296) at 3 by lia. lia. }
  rewrite B1, B2, B3, B4.
  assert (DU : rate <> 0 -> rate * (total * 1000 / rate) <= total * 1000 < rate * (total * 1000 / rate + 1)).
  { intro NZ. pose proof (N.mul_div_le (total * 1000) rate NZ). pose proof (N.mul_succ_div_gt (total * 1000) rate NZ). lia. }
  destruct (N.ltb_spec 0 rate); cbn [andb]; [|exists 0, 0, 0; split; [reflexivity|split; [lia|split; [auto|congruence]]]].
  destruct (N.ltb_spec 0 total).
  - destruct ((0 <? total * 1000 / rate) && (0 <? file) && (0 <? stream)) eqn:Z.
    + change (2 ^ 61) with 2305843009213693952 in F. replace (U64_MAX <? file * 8) with false by (unfold U64_MAX; lia). eexists _, _, _. split. reflexivity. split. intro; apply DU; lia. split. lia. auto.
    + eexists _, _, _. split. reflexivity. split. intro; apply DU; lia. split. lia. intros. exfalso. rewrite !andb_false_iff, !N.ltb_ge in Z. destruct Z as [[Z|Z]|Z]; [apply H1; apply N.le_0_r in Z; exact Z|lia|lia].
  - exists 0, 0, 0. split. reflexivity. split. lia. split. auto. congruence.
Qed.
Print Assumptions C94_properties.
Example C94_ex : flac_read_properties ex_info 88200 100000 = Ok (mkFp 1000 800 705 44100 16 2 1334440654591915542993625911497130241).
Proof. vm_compute. reflexivity. Qed.
