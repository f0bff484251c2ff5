From Verif Require Import Base BaseLemmas Str StrLemmas TextModel TextSpec TextProof Mode PictureModel FileModel Mp4Model Mp4WriteModel Mp4Spec Mp4Proof Mp4Proof3 Mp4Proof4.

(** ** A file with [moov], [udta] and [meta], all bytes in a row; the sizes are arbitrary *)
Definition lay (pre : list box) (S : N) (k1 : list box) (U : N) (u1 : list box) (M : N) (body : bytes) (u2 k2 post : list box) : bytes :=
  encs pre ++ be_enc 4 S ++ $"moov" ++ encs k1 ++ be_enc 4 U ++ $"udta" ++ encs u1 ++ be_enc 4 M ++ $"meta" ++ body ++ encs u2 ++ encs k2 ++ encs post.
Definition udta_box U u1 M body u2 : box := Node U ($"udta") (u1 ++ [Leaf M ($"meta") body] ++ u2).
Definition moov_kids k1 U u1 M body u2 k2 : list box := k1 ++ [udta_box U u1 M body u2] ++ k2.
Lemma encs_one : forall b, encs [b] = enc b.
Proof. intros. unfold encs. cbn. apply app_nil_r. Qed.
Lemma lay_tree : forall pre S k1 U u1 M body u2 k2 post,
  lay pre S k1 U u1 M body u2 k2 post = encs (pre ++ [Node S ($"moov") (moov_kids k1 U u1 M body u2 k2)] ++ post).
Proof.
  intros. unfold lay, moov_kids, udta_box. rewrite !encs_app, !encs_one. cbn [enc]. fold (encs (k1 ++ [Node U ($"udta") (u1 ++ [Leaf M ($"meta") body] ++ u2)] ++ k2)).
  rewrite !encs_app, !encs_one. cbn [enc]. fold (encs (u1 ++ [Leaf M ($"meta") body] ++ u2)). rewrite !encs_app, !encs_one. cbn [enc].
  rewrite <- !app_assoc. reflexivity.
Qed.
(** positions *)
Lemma be4_len : forall n, lenN (be_enc 4 n) = 4.
Proof. intros. apply be_enc_len. Qed.
Ltac lens := rewrite ?lenN_app, ?be4_len; change (lenN ($"moov")) with 4; change (lenN ($"udta")) with 4; change (lenN ($"meta")) with 4;
  unfold meta_at, udta_at, moov_at; try lia.
Lemma write_meta_size : forall pre S k1 U u1 M body u2 k2 post n, n < 2 ^ 32 ->
  write_size (meta_at pre k1 u1) n (lay pre S k1 U u1 M body u2 k2 post) = Ok (lay pre S k1 U u1 n body u2 k2 post).
Proof.
  intros. unfold write_size. replace (U32_MAX <? n) with false by (unfold U32_MAX in *; lia). unfold lay.
  set (P := encs pre ++ be_enc 4 S ++ $"moov" ++ encs k1 ++ be_enc 4 U ++ $"udta" ++ encs u1).
  assert (L : lenN P = meta_at pre k1 u1) by (unfold P; lens). rewrite <- L.
  assert (E : forall x, encs pre ++ be_enc 4 S ++ $"moov" ++ encs k1 ++ be_enc 4 U ++ $"udta" ++ encs u1 ++ x = P ++ x)
    by (intros; unfold P; now rewrite <- !app_assoc).
  rewrite !E, write_inside by now rewrite !be4_len. reflexivity.
Qed.
Lemma write_udta_size : forall pre S k1 U u1 M body u2 k2 post n, n < 2 ^ 32 ->
  write_size (udta_at pre k1) n (lay pre S k1 U u1 M body u2 k2 post) = Ok (lay pre S k1 n u1 M body u2 k2 post).
Proof.
  intros. unfold write_size. replace (U32_MAX <? n) with false by (unfold U32_MAX in *; lia). unfold lay.
  set (P := encs pre ++ be_enc 4 S ++ $"moov" ++ encs k1).
  assert (L : lenN P = udta_at pre k1) by (unfold P; lens). rewrite <- L.
  assert (E : forall x, encs pre ++ be_enc 4 S ++ $"moov" ++ encs k1 ++ x = P ++ x) by (intros; unfold P; now rewrite <- !app_assoc).
  rewrite !E, write_inside by now rewrite !be4_len. reflexivity.
Qed.
Lemma write_moov_size : forall pre S k1 U u1 M body u2 k2 post n, n < 2 ^ 32 ->
  write_size (moov_at pre) n (lay pre S k1 U u1 M body u2 k2 post) = Ok (lay pre n k1 U u1 M body u2 k2 post).
Proof.
  intros. unfold write_size. replace (U32_MAX <? n) with false by (unfold U32_MAX in *; lia). unfold lay, moov_at.
  rewrite write_inside by now rewrite !be4_len. reflexivity.
Qed.
Lemma splice_mid : forall a x b new, splice (lenN a) (lenN a + lenN x) new (a ++ x ++ b) = Ok (a ++ new ++ b).
Proof.
  intros. unfold splice. rewrite !lenN_app. replace ((_ <? _) || _) with false by lia. f_equal. rewrite takeN_app by auto. f_equal. f_equal.
  rewrite app_assoc, dropN_app; auto. apply lenN_app.
Qed.
Lemma splice_body : forall pre S k1 U u1 M b1 mid b2 u2 k2 post new start,
  start = meta_at pre k1 u1 + 8 + lenN b1 ->
  splice start (start + lenN mid) new (lay pre S k1 U u1 M (b1 ++ mid ++ b2) u2 k2 post) = Ok (lay pre S k1 U u1 M (b1 ++ new ++ b2) u2 k2 post).
Proof.
  intros. unfold lay.
  set (P := encs pre ++ be_enc 4 S ++ $"moov" ++ encs k1 ++ be_enc 4 U ++ $"udta" ++ encs u1 ++ be_enc 4 M ++ $"meta" ++ b1).
  assert (L : lenN P = start) by (subst start; unfold P; lens). rewrite <- L.
  assert (E : forall x, encs pre ++ be_enc 4 S ++ $"moov" ++ encs k1 ++ be_enc 4 U ++ $"udta" ++ encs u1 ++ be_enc 4 M ++ $"meta" ++ (b1 ++ x ++ b2) ++ encs u2 ++ encs k2 ++ encs post = P ++ x ++ b2 ++ encs u2 ++ encs k2 ++ encs post)
    by (intros; unfold P; now rewrite <- !app_assoc).
  rewrite !E, splice_mid. reflexivity.
Qed.
(** ** Moving the offsets *)
Definition dry (l : list box) : Prop := Forall (fun b => offsets_ok b /\ every (fun b => box_name b <> $"tfhd") b) l.
Lemma lenN_leaf : forall s t id c, lenN (enc (Leaf s id c)) = lenN (enc (Leaf t id c)).
Proof. intros. cbn [enc]. now rewrite !lenN_app, !be4_len. Qed.
Lemma lenN_node : forall s t id l l', lenN (encs l) = lenN (encs l') -> lenN (enc (Node s id l)) = lenN (enc (Node t id l')).
Proof. intros. cbn [enc]. fold (encs l). fold (encs l'). now rewrite !lenN_app, !be4_len, H. Qed.
Lemma cats_sizes : forall pos k1 U U' u1 M M' body u2 k2,
  cats pos (moov_kids k1 U u1 M body u2 k2) = cats pos (moov_kids k1 U' u1 M' body u2 k2).
Proof.
  intros. unfold moov_kids, udta_box. rewrite !cats_app. cbn [cats]. rewrite !cat_node, !encs_one.
  assert (E : lenN (encs (u1 ++ [Leaf M ($"meta") body] ++ u2)) = lenN (encs (u1 ++ [Leaf M' ($"meta") body] ++ u2))).
  { rewrite !encs_app, !encs_one, !lenN_app, (lenN_leaf M M'). reflexivity. }
  rewrite (lenN_node U U' _ _ _ E). f_equal. f_equal. f_equal. rewrite !cats_app. cbn [cats cat]. rewrite !encs_one, (lenN_leaf M M'). reflexivity.
Qed.
Lemma sound_of : forall b, len4 b -> offsets_ok b -> every (fun b => match b with Node _ id _ => In id CONTAINERS | _ => True end) b -> sound b.
Proof.
  induction b as [s id c|s id ks IH] using box_ind'; intros H1 H2 H3.
  - destruct H1 as [H1 _]. destruct H2 as [[_ H2] _]. split; auto.
  - unfold sound, len4, offsets_ok in *. rewrite every_node in *. destruct H1 as [H1 K1], H2 as [[_ H2] K2], H3 as [H3 K3]. cbn [box_name] in *. split.
    + split; auto. intros ->. now apply stco_not_container.
    + rewrite Forall_forall in *. auto.
Qed.
Lemma box_ok_containers : forall b, box_ok b -> every (fun b => match b with Node _ id _ => In id CONTAINERS | _ => True end) b.
Proof. intros b H. apply box_ok_every in H. eapply every_impl; [|exact H]. intros [|s id ks] X; auto. apply box_ok_node in X. apply X. Qed.
Lemma sound_list : forall l, boxes_ok l -> dry l -> Forall sound l.
Proof.
  intros l H1 H2. unfold boxes_ok, dry in *. rewrite Forall_forall in *. intros b I. specialize (H1 b I). destruct (H2 b I) as [H3 _].
  apply sound_of; auto using box_ok_len4, box_ok_containers.
Qed.
Lemma sh_meta : forall d from M body, shift_tables d from (Leaf M ($"meta") body) = Leaf M ($"meta") body.
Proof. reflexivity. Qed.
Lemma sh_len : forall d from l, Forall sound l -> lenN (encs (sh d from l)) = lenN (encs l).
Proof.
  intros. destruct (shifts_list d from l) with (P := @nil N) (Q := @nil N) as [_ E]; auto.
  apply Forall_forall. intros; apply shifts_all.
Qed.
Lemma dry_co64 : forall l, dry l -> Forall (every (fun b => box_name b <> $"co64")) l.
Proof. intros l H. eapply Forall_impl; [|exact H]. intros b [B _]. eapply every_impl; [|exact B]. cbn. tauto. Qed.
Lemma find_top_in : forall f l pos c, find_top f (cats pos l) = Some c -> exists p b, c = cat p b /\ In b l.
Proof.
  unfold find_top. induction l as [|x l IH]; intros pos c H; cbn [cats find] in H; [discriminate|].
  destruct (is_fourcc f _); [inversion H; exists pos, x; split; auto; now left|]. apply IH in H. destruct H as (p & b & E & I). exists p, b. split; auto. now right.
Qed.
Lemma children_none : forall want p b, every (fun b => box_name b <> want) b -> all_children want (cat p b) = [].
Proof.
  intros want p [s id c|s id ks] H; [reflexivity|]. rewrite all_children_visit, cat_node. cbn [c_kids]. apply visits_none.
  apply every_node in H. apply H.
Qed.
Lemma update_offsets_ok : forall top pre S S0 k1 U U0 u1 M M0 body u2 k2 post d from,
  Forall (every (fun b => box_name b <> $"tfhd")) top ->
  Forall sound (k1 ++ u1 ++ u2 ++ k2) -> dry (k1 ++ u1 ++ u2 ++ k2) ->
  update_offsets (cats 0 top) (cat (moov_at pre) (Node S0 ($"moov") (moov_kids k1 U0 u1 M0 body u2 k2))) d from
    (lay pre S k1 U u1 M body u2 k2 post)
  = Ok (lay pre S (sh d from k1) U (sh d from u1) M body (sh d from u2) (sh d from k2) post).
Proof.
  intros top pre S S0 k1 U U0 u1 M M0 body u2 k2 post d from HT HS HD. unfold update_offsets.
  rewrite !all_children_visit, cat_node. cbn [c_kids]. rewrite (cats_sizes _ k1 U0 U u1 M0 M).
  assert (SM : sound (Leaf M ($"meta") body)). { split; [split; [reflexivity|]|exact I]. intros X. vm_compute in X. discriminate X. }
  apply Forall_app in HS. destruct HS as [S1 HS]. apply Forall_app in HS. destruct HS as [S2 HS]. apply Forall_app in HS. destruct HS as [S3 S4].
  assert (SU : sound (udta_box U u1 M body u2)).
  { unfold sound, udta_box. apply every_node. split; [split; [reflexivity|intros X; vm_compute in X; discriminate X]|].
    apply Forall_app. split; [exact S2|]. apply Forall_app. split; [constructor; [exact SM|constructor]|exact S3]. }
  assert (SK : Forall sound (moov_kids k1 U u1 M body u2 k2)).
  { unfold moov_kids. apply Forall_app. split; [exact S1|]. apply Forall_app. split; [constructor; [exact SU|constructor]|exact S4]. }
  assert (EQ : forall X, lay pre S k1 U u1 M body u2 k2 post = X -> X = lay pre S k1 U u1 M body u2 k2 post) by auto.
  set (P := encs pre ++ be_enc 4 S ++ $"moov").
  assert (LP : lenN P = moov_at pre + 8) by (unfold P; lens).
  assert (E1 : lay pre S k1 U u1 M body u2 k2 post = P ++ encs (moov_kids k1 U u1 M body u2 k2) ++ encs post).
  { rewrite lay_tree, !encs_app, encs_one. cbn [enc]. fold (encs (moov_kids k1 U u1 M body u2 k2)). unfold P. now rewrite <- !app_assoc. }
  assert (E2 : lay pre S (sh d from k1) U (sh d from u1) M body (sh d from u2) (sh d from k2) post
               = P ++ encs (map (shift_tables d from) (moov_kids k1 U u1 M body u2 k2)) ++ encs post).
  { rewrite lay_tree, !encs_app, encs_one. cbn [enc]. fold (encs (moov_kids (sh d from k1) U (sh d from u1) M body (sh d from u2) (sh d from k2))).
    unfold P. rewrite <- !app_assoc. do 4 f_equal. unfold moov_kids, udta_box. rewrite !map_app. cbn [map shift_tables upd]. rewrite map_app. cbn [map]. reflexivity. }
  rewrite E1, <- LP. destruct (shifts_list d from (moov_kids k1 U u1 M body u2 k2)) with (P := P) (Q := encs post) as [EE _]; auto.
  { apply Forall_forall. intros; apply shifts_all. }
  rewrite EE. cbn [bind]. rewrite E2.
  assert (HC : flat_map (visit ($"co64")) (cats (lenN P) (moov_kids k1 U u1 M body u2 k2)) = []).
  { apply visits_none. apply dry_co64 in HD. apply Forall_app in HD. destruct HD as [D1 HD]. apply Forall_app in HD. destruct HD as [D2 HD]. apply Forall_app in HD. destruct HD as [D3 D4].
    unfold moov_kids. apply Forall_app. split; [exact D1|]. apply Forall_app. split; [|exact D4]. constructor; [|constructor].
    unfold udta_box. apply every_node. split; [intros X; vm_compute in X; discriminate X|]. apply Forall_app. split; [exact D2|]. apply Forall_app. split; [|exact D3].
    constructor; [|constructor]. split; [intros X; vm_compute in X; discriminate X|exact I]. }
  rewrite HC. cbn [shift_co64 bind].
  destruct (find_top ($"moof") (cats 0 top)) as [c|] eqn:F; auto. apply find_top_in in F. destruct F as (p & b & -> & I).
  rewrite Forall_forall in HT. rewrite children_none by auto. reflexivity.
Qed.
