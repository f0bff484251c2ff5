From Verif Require Import Base BaseLemmas Str StrLemmas TextModel TextSpec TextProof Mode PictureModel FileModel Mp4Model Mp4WriteModel Mp4Spec Mp4Proof Mp4Proof2 Mp4Proof3 Mp4Proof4 Mp4Proof5 Mp4Proof6 Mp4Proof7 Mp4Proof8.

(** ** Shifted tables are well-formed atoms *)
Lemma shift_name : forall d from b, box_name (shift_tables d from b) = box_name b.
Proof. intros d from [s id c|s id ks]; reflexivity. Qed.
Lemma shift_len : forall d from b, sound b -> lenN (enc (shift_tables d from b)) = lenN (enc b).
Proof.
  intros d from b H. pose proof (sh_len d from [b] (Forall_cons _ H (Forall_nil _))) as E. unfold sh in E. cbn [map] in E. now rewrite !encs_one in E.
Qed.
Lemma shift_ok : forall d from b, sound b -> box_ok b -> box_ok (shift_tables d from b).
Proof.
  intros d from. induction b using box_ind'; intros HS HO.
  - pose proof (shift_len d from _ HS) as L. cbn [shift_tables upd enc] in *. rewrite !lenN_app in L. cbn [box_ok] in *. destruct HO as (E & B & I & D & C). repeat split; auto; try apply I. lia.
  - pose proof (shift_len d from _ HS) as L. cbn [shift_tables upd enc] in *. fold (shift_tables d from) in *. fold (sh d from ks) in *. rewrite !lenN_app in L.
    apply box_ok_node in HO. destruct HO as (E & B & I & K). apply box_ok_node. repeat split; auto.
    + unfold encs in *. lia.
    + unfold sound in HS. apply every_node in HS. destruct HS as [_ HS].
      unfold boxes_ok, sh in *. rewrite Forall_map. rewrite Forall_forall in *. intros x X. apply H; auto. apply HS; auto.
Qed.
Lemma shd_ok : forall d from l, Forall sound l -> boxes_ok l -> boxes_ok (shd d from l).
Proof.
  intros. unfold shd. destruct (d =? 0)%Z; auto. unfold boxes_ok, sh in *. rewrite Forall_map. rewrite Forall_forall in *. intros; apply shift_ok; auto.
Qed.
Lemma shd_named : forall d from n l, none_named n l -> none_named n (shd d from l).
Proof. intros. unfold shd. destruct (d =? 0)%Z; auto. unfold none_named, sh in *. rewrite Forall_map. eapply Forall_impl; [|exact H]. intros b B. cbn. now rewrite shift_name. Qed.
Lemma shd_len : forall d from l, Forall sound l -> lenN (encs (shd d from l)) = lenN (encs l).
Proof. intros. unfold shd. destruct (d =? 0)%Z; auto. now apply sh_len. Qed.
Lemma shd_app : forall d from a b, shd d from (a ++ b) = shd d from a ++ shd d from b.
Proof. intros. unfold shd. destruct (d =? 0)%Z; auto. apply map_app. Qed.
Lemma none_map : forall d from n l, none_named n l -> none_named n (map (shift_tables d from) l).
Proof. intros. unfold none_named in *. rewrite Forall_map. eapply Forall_impl; [|exact H]. intros b B. cbn. now rewrite shift_name. Qed.
Lemma shift_quiet : forall d from b, quiet_trak b -> quiet_trak (shift_tables d from b).
Proof.
  intros d from b H HN. rewrite shift_name in HN. destruct (H HN) as (s & ks & -> & K). exists s, (map (shift_tables d from) ks). split; [reflexivity|].
  destruct K as [K|(t1 & x & t2 & -> & N1 & NX & N2 & N3)]; [left; now apply none_map|right].
  exists (map (shift_tables d from) t1), (shift_tables d from x), (map (shift_tables d from) t2). rewrite map_app, shift_name. repeat split; auto using none_map.
Qed.
Lemma shd_quiet : forall o d from l, quiet o l -> quiet o (shd d from l).
Proof. intros o d from l H P. specialize (H P). unfold shd. destruct (d =? 0)%Z; auto. unfold sh. rewrite Forall_map. eapply Forall_impl; [|exact H]. intros; now apply shift_quiet. Qed.
Lemma shd_boring : forall d from l, Forall boring l -> Forall boring (shd d from l).
Proof. intros. unfold shd. destruct (d =? 0)%Z; auto. unfold sh. rewrite Forall_map. eapply Forall_impl; [|exact H]. intros b [B C]. split; now rewrite shift_name. Qed.

(** ** The new atoms *)
Lemma new_kids_total : forall a0 f1 old f2 b0 I padding, Forall hd_ok f2 ->
  (forall p, padding = Some p -> 8 <= p < 2 ^ 32) -> exists kids' d upto, new_kids a0 f1 old f2 b0 I padding kids' d upto.
Proof.
  intros a0 f1 old f2 b0 I padding HF HP. destruct I as [|i I]; [eauto using new_kids|]. set (J := i :: I). assert (NE : J <> []) by discriminate.
  set (T := lenN (encs f1) + lenN (enc old)). destruct (N.lt_ge_cases (lenN J) T) as [L|L].
  - set (n := T - lenN J). destruct (N.lt_ge_cases 8 (n + lenN (encs f2))) as [G|G].
    + eexists _, _, _. apply NkFits with (n := n + lenN (encs f2)); auto. unfold n, T in *. lia.
    + destruct (N.eq_dec n 8) as [E|E].
      * eexists _, _, _. apply NkFill; auto; [unfold n, T in *; lia|]. destruct f2 as [|x f2]; auto. inversion HF; subst.
        destruct H1 as (_ & _ & _ & X & _). rewrite encs_cons, lenN_app in G. lia.
      * destruct padding as [p|]; eexists _, _, _; [apply NkPad with (n := n) (p := p)|apply NkShrink with (n := n)]; auto; unfold n, T in *; lia.
  - set (n := lenN J - T). destruct (N.lt_ge_cases (n + 8) (lenN (encs f2))) as [G|G].
    + eexists _, _, _. apply NkFits with (n := lenN (encs f2) - n); auto; unfold n, T in *; lia.
    + eexists _, _, _. apply NkGrow with (n := n); auto; unfold n, T in *; lia.
Qed.
Lemma free_box_enc : forall n, 8 <= n -> free_box n = enc (Leaf n ($"free") (repeat 1 (N.to_nat (n - 8)))).
Proof.
  intros. unfold free_box, sbox. cbn [enc]. replace (8 + lenN (repeat 1 (N.to_nat (n - 8)))) with n; [reflexivity|]. unfold lenN. rewrite repeat_length. lia.
Qed.
Lemma free_ok : forall n, 8 <= n < 2 ^ 32 -> item_ok (Leaf n ($"free") (repeat 1 (N.to_nat (n - 8)))).
Proof.
  intros. cbn [item_ok]. assert (8 + lenN (repeat 1 (N.to_nat (n - 8))) = n) by (unfold lenN; rewrite repeat_length; lia).
  repeat split; try lia; try discriminate. repeat (constructor; [left; vm_compute; split; congruence|]); constructor.
Qed.
Lemma new_kids_boxes : forall a0 f1 old f2 b0 I padding kids' d upto, new_kids a0 f1 old f2 b0 I padding kids' d upto ->
  all_free f2 -> Forall item_ok f2 -> lenN (encs f1) + lenN (enc old) + lenN (encs f2) < 2 ^ 32 ->
  (I = [] /\ kids' = encs (a0 ++ f1 ++ f2 ++ b0)) \/
  (I <> [] /\ exists fr, all_free fr /\ Forall item_ok fr /\ kids' = encs a0 ++ I ++ encs (fr ++ b0)).
Proof.
  intros a0 f1 old f2 b0 I padding kids' d upto H HF HI HL. destruct H; [left|right..]; rewrite ?encs_app; auto; split; auto.
  - exists [Leaf n ($"free") (repeat 1 (N.to_nat (n - 8)))]. repeat split; [repeat constructor| |rewrite free_box_enc, encs_app, encs_one by lia; reflexivity].
    constructor; auto. apply free_ok. lia.
  - exists f2. repeat split; auto. now rewrite encs_app.
  - exists (Leaf 8 ($"free") (repeat 1 (N.to_nat (8 - 8))) :: f2). repeat split; [constructor; auto|constructor; auto; apply free_ok; lia|].
    rewrite free_box_enc by lia. rewrite <- app_comm_cons, encs_cons, encs_app. reflexivity.
  - exists f2. repeat split; auto. now rewrite encs_app.
  - exists (Leaf p ($"free") (repeat 1 (N.to_nat (p - 8))) :: f2). repeat split; [constructor; auto|constructor; auto; apply free_ok; lia|].
    rewrite free_box_enc by lia. rewrite <- app_comm_cons, encs_cons, encs_app. reflexivity.
Qed.
(** The file after a save is well-formed *)
Lemma file_ok : forall pre k1 u1 meta u2 k2 post,
  boxes_ok pre -> boxes_ok k1 -> boxes_ok u1 -> boxes_ok u2 -> boxes_ok k2 -> boxes_ok post ->
  moov_size k1 (udta_size u1 (8 + lenN meta) u2) k2 < 2 ^ 32 -> boxes_ok (mp4_file pre k1 u1 meta u2 k2 post).
Proof.
  intros pre k1 u1 meta u2 k2 post P1 P2 P3 P4 P5 P6 L. rewrite file_tree. unfold boxes_ok in *. rewrite !Forall_app. repeat split; auto. constructor; auto.
  set (M := 8 + lenN meta) in *. set (U := udta_size u1 M u2) in *.
  assert (LU : lenN (encs (u1 ++ [Leaf M ($"meta") meta] ++ u2)) + 8 = U).
  { rewrite !encs_app, encs_one, !lenN_app. cbn [enc]. rewrite lenN_hd by reflexivity. unfold U, udta_size, M. lia. }
  assert (LE : lenN (enc (udta_box U u1 M meta u2)) = U) by (unfold udta_box; cbn [enc]; fold (encs (u1 ++ [Leaf M ($"meta") meta] ++ u2)); rewrite lenN_hd by reflexivity; lia).
  apply box_ok_node. split; [|split; [exact L|split; [vm_compute; tauto|]]].
  - unfold moov_kids. rewrite !encs_app, encs_one, !lenN_app, LE. unfold moov_size. lia.
  - unfold moov_kids, boxes_ok. rewrite !Forall_app. repeat split; auto. constructor; auto. unfold udta_box. apply box_ok_node.
    split; [lia|split; [unfold moov_size in L; lia|split; [vm_compute; tauto|]]].
    unfold boxes_ok. rewrite !Forall_app. repeat split; auto. constructor; auto. cbn [box_ok]. unfold moov_size, U, udta_size, M in *.
    repeat split; try lia; try discriminate; try (repeat (constructor; [left; vm_compute; split; congruence|]); constructor).
    intros X. cbn in X. repeat (destruct X as [X|X]; [discriminate|]); contradiction.
Qed.
Lemma ftyp_pre : forall pre k1 u1 meta u2 k2 post k1' u1' meta' u2' k2', ftyp_first (mp4_file pre k1 u1 meta u2 k2 post) -> ftyp_first (mp4_file pre k1' u1' meta' u2' k2' post).
Proof. intros. destruct pre as [|b pre]; [contradiction|]. exact H. Qed.
Lemma build_ilst_ok : forall tag I, Forall atom_ok tag -> build_ilst tag = Ok I ->
  (tag = [] /\ I = []) \/
  (tag <> [] /\ I = enc (leaf ($"ilst") (flat_map item_box tag)) /\ 8 + lenN (flat_map item_box tag) < 2 ^ 32 /\
   forall o, Forall (kept o) tag -> parse_ilst o (flat_map item_box tag) = Ok tag).
Proof.
  intros tag I HA H. destruct tag as [|a tag]; [left; split; auto; now inversion H|right]. split; [discriminate|]. unfold build_ilst in H.
  destruct (write_items (a :: tag)) as [c| |] eqn:E; cbn [bind] in H; try discriminate. apply atom_bytes_ok in H. destruct H as [-> L].
  apply write_items_ok in E; auto. destruct E as [-> E]. split; [reflexivity|]. split; [exact L|]. intros; now apply parse_items.
Qed.
