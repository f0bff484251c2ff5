(** * C248 for FLAC: saving a tag does not change what is read about the audio *)
From Verif Require Import BaseLemmas StrLemmas TextSpec TextProof PictureProof PictureThm Id3v2HeaderProof Id3v2HeaderThm VorbisThm FlacMoveThm FlacSpec FlacModel FlacProof FlacThm.

Definition same_flac (p q : flac_props) : Prop := exists overall, q = mkFp (fp_duration p) overall (fp_audio p) (fp_rate p) (fp_depth p) (fp_channels p) (fp_md5 p).
Definition flac_sound (ok : id3v2_header -> bytes -> bool) (o : fopts) (data : bytes) (p : flac_props) : Prop := exists f, flac_read ok o data = Ok f /\ ff_props f = p.
(** The properties alone are read. *)
Definition only_props (o : fopts) : Prop := fo_tags o = false /\ vo_cover (fo_vo o) = false /\ fo_props o = true.
Lemma see_nothing : forall o l f, only_props o -> see o l f = Ok f.
Proof. intros o l f (T & C & _). revert f. induction l as [|[ty c] l IH]; intro f; auto. cbn [see]. unfold want_read. rewrite T, C, !andb_false_r. cbn [orb read_block_into b_content bind]. apply IH. Qed.
Lemma read_props : forall ok o pre info l B audio, (pre = [] \/ forall h c, ok h c = true) -> only_props o -> tag_prefix pre -> metadata ((0, info) :: l) B -> 34 <= lenN info ->
  flac_read ok o (flac_bytes pre B audio) = (let? p := flac_read_properties info (lenN audio) (lenN (flac_bytes pre B audio)) in Ok (mkFlac None [] p)).
Proof.
  intros ok o pre info l B audio OK O P M I. pose proof O as (T & C & PR). unfold flac_read. rewrite T. pose proof (rest_long _ _ _ audio M I) as L10.
  destruct (prefix_found pre P (B ++ audio) false L10) as (h & tt' & E & HN). change (pre ++ $"fLaC" ++ B ++ audio) with (flac_bytes pre B audio) in E. rewrite E.
  assert (IDOK : (match h, tt' with Some h, Some c => if ok h c then Ok 0 else Err FlFind | _, _ => Ok 0 end) = @Ok flac_error N 0).
  { destruct h, tt'; auto. destruct OK as [OK|OK]. specialize (HN OK). discriminate. now rewrite OK. }
  rewrite IDOK. cbn [bind]. destruct (verify_ok pre info _ B audio M) as (last & B2 & VE & EB & M2). rewrite VE. cbn [bind b_last b_content].
  assert (E18 : lenN (pre ++ $"fLaC" ++ blk last (0, info)) - (lenN pre + 4) = lenN info + 4) by (rewrite !lenN_app, blk_len; change (lenN ($"fLaC")) with 4; cbn [snd]; lia).
  rewrite E18. replace (lenN info + 4 <? 18) with false by lia. set (f0 := mkFlac None [] fp_default).
  assert (RB : read_blocks (S (length (flac_bytes pre B audio))) o (flac_bytes pre B audio) (lenN (pre ++ $"fLaC" ++ blk last (0, info))) last f0 = Ok (f0, lenN (pre ++ $"fLaC" ++ B))).
  { destruct last.
    - destruct M2 as [EN ->]. rewrite app_nil_r in EB. subst B. reflexivity.
    - unfold flac_bytes. rewrite EB.
      replace (pre ++ $"fLaC" ++ (blk false (0, info) ++ B2) ++ audio) with ((pre ++ $"fLaC" ++ blk false (0, info)) ++ B2 ++ audio) by now rewrite <- !app_assoc.
      rewrite (read_blocks_see _ B2 M2). 2: { pose proof (metadata_len _ _ M2) as [_ ML]. rewrite !(app_length _ (B2 ++ audio)), !(app_length B2). lia. }
      rewrite see_nothing by auto. cbn [bind]. now rewrite <- !app_assoc. }
  rewrite RB. cbn [bind]. rewrite PR. cbn [negb]. unfold flac_bytes. rewrite !lenN_app. replace (_ <? _) with false by (symmetry; apply N.ltb_ge; lia).
  match goal with |- context [flac_read_properties info ?x _] => replace x with (lenN audio) by lia end. reflexivity.
Qed.
Lemma props_same : forall info stream file file' p, flac_read_properties info stream file = Ok p -> 0 < file -> 0 < file' < 2 ^ 61 -> exists q, flac_read_properties info stream file' = Ok q /\ same_flac p q.
Proof.
  intros info stream file file' p H F [F1 F2]. unfold same_flac. unfold flac_read_properties in *.
  destruct (read_be 4 info) as [[x1 r1]|]; cbn [frd bind] in *; [|discriminate]. destruct (read_be 6 r1) as [[x2 r2]|]; cbn [frd bind] in *; [|discriminate].
  destruct (read_be 4 r2) as [[x3 r3]|]; cbn [frd bind] in *; [|discriminate]. destruct (read_be 4 r3) as [[x4 r4]|]; cbn [frd bind] in *; [|discriminate]. destruct (read_be 16 r4) as [[x5 r5]|]; cbn [frd bind] in *; [|discriminate].
  destruct (_ && (0 <? N.lor _ _)). 2: { inversion H; subst p. eauto. }
  set (len := _ / _) in *. replace (0 <? file) with true in H by (symmetry; now apply N.ltb_lt). replace (0 <? file') with true by (symmetry; now apply N.ltb_lt). destruct (0 <? len); cbn [andb] in *. 2: { inversion H; subst p. eauto. }
  destruct (0 <? stream). 2: { inversion H; subst p. eauto. }
  destruct (U64_MAX <? file * 8); [discriminate|]. replace (U64_MAX <? file' * 8) with false. { inversion H; subst p. cbn. eauto. }
  symmetry. apply N.ltb_ge. change U64_MAX with 18446744073709551615. change (2 ^ 61) with 2305843009213693952 in F2. lia.
Qed.
Lemma flac_pos : forall pre B audio, 0 < lenN (flac_bytes pre B audio). Proof. intros. unfold flac_bytes. rewrite !lenN_app. change (lenN ($"fLaC")) with 4. lia. Qed.
Theorem C248_flac : forall ok o pre info l B audio v v' items pics pad cb p,
  (pre = [] \/ forall h c, ok h c = true) -> only_props o -> tag_prefix pre -> metadata ((0, info) :: l) B -> 34 <= lenN info -> retained v l v' ->
  comment_block v' items cb -> Forall (fun x => lenN (snd (picture_block x)) < 2 ^ 24) pics -> flac_sound ok o (flac_bytes pre B audio) p ->
  exists log, flac_write (flac_bytes pre B audio) v items pics pad = Ok log /\
    (lenN (apply_log (flac_bytes pre B audio) log) < 2 ^ 61 -> exists q, flac_sound ok o (apply_log (flac_bytes pre B audio) log) q /\ same_flac p q).
Proof.
  intros ok o pre info l B audio v v' items pics pad cb p OK O P M I R C PS (f & RD & <-).
  assert (DC : (items <> [] \/ pics <> [] \/ exists x, In x l /\ (fst x = 4 \/ fst x = 6)) \/ (items = [] /\ pics = [] /\ forall x, In x l -> fst x <> 4 /\ fst x <> 6)).
  { destruct items; [|left; left; discriminate]. destruct pics; [|left; right; left; discriminate]. destruct (existsb (fun x => (fst x =? 4) || (fst x =? 6)) l) eqn:E.
    - apply existsb_exists in E as (x & X & E). left. right. right. exists x. split; auto. apply orb_true_iff in E as [E|E]; apply N.eqb_eq in E; auto.
    - right. repeat split; auto; intro E'; assert (existsb (fun x => (fst x =? 4) || (fst x =? 6)) l = true) by (apply existsb_exists; exists x; rewrite E'; auto); congruence. }
  destruct DC as [DO|(-> & -> & N)].
  - destruct (C89_save pre info l B audio v v' items pics pad cb P M I R C PS DO) as (log & B' & pb & W & A & M' & _). exists log. split; auto. intro L61. rewrite A in *.
    rewrite (read_props ok o pre info l B audio OK O P M I) in RD. destruct (flac_read_properties info _ _) as [p0| |] eqn:E; cbn [bind] in RD; try discriminate. inversion RD; subst f. cbn [ff_props].
    destruct (props_same _ _ _ (lenN (flac_bytes pre B' audio)) p0 E (flac_pos _ _ _)) as (q & Q & SM). { split; auto. apply flac_pos. }
    exists q. split; auto. eexists. rewrite (read_props ok o pre info _ B' audio OK O P M' I), Q. cbn [bind]. split; reflexivity.
  - exists []. split. { eapply C89_nothing; eauto. } intros _. exists (ff_props f). split. { exists f. auto. } unfold same_flac. destruct (ff_props f). cbn. eauto.
Qed.
Definition props_only : fopts := mkFo (mkVo false true BestAttempt) false true.
Definition flac_props_of (data : bytes) : option flac_props := match flac_read (fun _ _ => true) props_only data with Ok f => Some (ff_props f) | _ => None end.
Definition snd_info : bytes := [16; 0; 16; 0; 0; 0; 14; 0; 19; 20; 10; 196; 66; 240; 0; 0; 1; 68] ++ repeat 1 16.
Definition snd_file : bytes := $"fLaC" ++ [0; 0; 0; 34] ++ snd_info ++ [129; 0; 0; 2; 0; 0] ++ repeat 9 80.
Example C248_flac_ex : flac_props_of snd_file = Some (mkFp 7 146 91 44100 16 2 1334440654591915542993625911497130241) /\
  match flac_write snd_file ($"v") [($"TITLE", $"x")] [] (Some 8) with Ok log => flac_props_of (apply_log snd_file log) | _ => None end = Some (mkFp 7 173 91 44100 16 2 1334440654591915542993625911497130241).
Proof. split; vm_compute; reflexivity. Qed.
