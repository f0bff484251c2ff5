From Verif Require Import Base BaseLemmas Str StrLemmas TextModel TextSpec TextProof Mode PictureModel FileModel Mp4Model Mp4WriteModel Mp4Spec Mp4Proof Mp4Proof3.

Lemma write_inside : forall a x b y, lenN x = lenN y -> write_at (lenN a) y (a ++ x ++ b) = a ++ y ++ b.
Proof.
  intros. unfold write_at. rewrite takeN_app by auto.
  replace (N.to_nat (lenN a - lenN (a ++ x ++ b))) with O by (rewrite lenN_app; lia). cbn [repeat app].
  rewrite (app_assoc a x b), (dropN_app _ _ (a ++ x)); [reflexivity|]. rewrite lenN_app. lia.
Qed.
Lemma every_node : forall P s id ks, every P (Node s id ks) <-> P (Node s id ks) /\ Forall (every P) ks.
Proof.
  intros. cbn [every]. split; intros [H1 H2]; split; auto; clear H1.
  - induction ks; constructor; [apply H2|apply IHks, H2].
  - induction H2; auto.
Qed.
Lemma every_impl : forall (P Q : box -> Prop), (forall b, P b -> Q b) -> forall b, every P b -> every Q b.
Proof.
  intros P Q H. induction b as [s id c|s id ks IH] using box_ind'; intros E.
  - destruct E. split; auto.
  - apply every_node in E. apply every_node. destruct E as [E1 E2]. split; auto. rewrite Forall_forall in *. auto.
Qed.
Lemma box_ok_every : forall b, box_ok b -> every box_ok b.
Proof.
  induction b as [s id c|s id ks IH] using box_ind'; intros E. split; auto.
  apply every_node. split; auto. apply box_ok_node in E. destruct E as (_ & _ & _ & E). unfold boxes_ok in E. rewrite Forall_forall in *. auto.
Qed.
Definition len4 : box -> Prop := every (fun b => lenN (box_name b) = 4).
Lemma box_ok_len4 : forall b, box_ok b -> len4 b.
Proof. intros b H. apply box_ok_every in H. eapply every_impl; [|exact H]. intros x X. apply box_ok_hd in X. apply X. Qed.

(** ** Moving the offsets of one table *)
Lemma shift_entries_ok : forall w d from offs P Q,
  Forall (fun o => o < 256 ^ N.of_nat w) offs ->
  shift_entries (N.of_nat w) (length offs) (lenN P) d from (P ++ flat_map (be_enc w) offs ++ Q) =
    Ok (P ++ flat_map (be_enc w) (map (fun o => if o <? from then o else add_mod (8 * N.of_nat w) o d) offs) ++ Q).
Proof.
  intros w d from. induction offs as [|o offs IH]; intros P Q HO; cbn [length shift_entries flat_map map]; auto. inversion HO; subst.
  assert (D : dropN (lenN P) (P ++ (be_enc w o ++ flat_map (be_enc w) offs) ++ Q) = be_enc w o ++ flat_map (be_enc w) offs ++ Q)
    by (rewrite dropN_app by auto; now rewrite <- app_assoc).
  rewrite D, (read_exact_app (N.of_nat w)) by apply be_enc_len. cbn [mord bind]. rewrite be_dec_enc, Nat2N.id by auto.
  set (o' := add_mod (8 * N.of_nat w) o d).
  assert (E : (if o <? from then P ++ (be_enc w o ++ flat_map (be_enc w) offs) ++ Q
               else write_at (lenN P) (be_enc w o') (P ++ (be_enc w o ++ flat_map (be_enc w) offs) ++ Q))
              = (P ++ be_enc w (if o <? from then o else o')) ++ flat_map (be_enc w) offs ++ Q).
  { destruct (o <? from); [now rewrite <- !app_assoc|]. rewrite <- !app_assoc. rewrite write_inside by now rewrite !be_enc_len. reflexivity. }
  rewrite E. replace (lenN P + N.of_nat w) with (lenN (P ++ be_enc w (if o <? from then o else o'))) by now rewrite lenN_app, be_enc_len.
  rewrite IH by auto. now rewrite <- !app_assoc.
Qed.
Lemma map_words_ok : forall w g offs rest, Forall (fun o => o < 256 ^ N.of_nat w) offs ->
  map_words w (length offs) g (flat_map (be_enc w) offs ++ rest) = flat_map (be_enc w) (map g offs) ++ rest.
Proof.
  intros w g. induction offs as [|o offs IH]; intros rest H; cbn [length map_words flat_map map app]; auto. inversion H; subst.
  rewrite <- app_assoc, takeN_app, dropN_app by apply be_enc_len. rewrite be_dec_enc by auto. now rewrite IH, <- app_assoc.
Qed.
Lemma map_table_ok : forall w g c offs, table w c offs ->
  exists ver rest, lenN ver = 4 /\ c = ver ++ be_enc 4 (lenN offs) ++ flat_map (be_enc w) offs ++ rest /\
    map_table w g c = ver ++ be_enc 4 (lenN offs) ++ flat_map (be_enc w) (map g offs) ++ rest.
Proof.
  intros w g c offs (ver & rest & V & E & L & B). exists ver, rest. split; auto. split; auto. unfold map_table.
  assert (T : takeN 8 c = ver ++ be_enc 4 (lenN offs)).
  { rewrite E, app_assoc. apply takeN_app. rewrite lenN_app, be_enc_len, V. reflexivity. }
  assert (D : dropN 8 c = flat_map (be_enc w) offs ++ rest).
  { rewrite E, app_assoc. apply dropN_app. rewrite lenN_app, be_enc_len, V. reflexivity. }
  assert (D4 : takeN 4 (dropN 4 c) = be_enc 4 (lenN offs)).
  { rewrite E, dropN_app by auto. apply takeN_app. apply be_enc_len. }
  rewrite T, D, D4, be_dec_enc by exact L. unfold lenN at 2. rewrite Nat2N.id, map_words_ok by auto. now rewrite <- !app_assoc.
Qed.
Lemma shift_table_ok : forall w d from P c Q offs, table w c offs ->
  shift_table (N.of_nat w) (lenN P + 4) d from (P ++ c ++ Q)
    = Ok (P ++ map_table w (fun o => if o <? from then o else add_mod (8 * N.of_nat w) o d) c ++ Q).
Proof.
  intros w d from P c Q offs T. pose proof T as (_ & _ & _ & _ & L & B).
  destruct (map_table_ok w (fun o => if o <? from then o else add_mod (8 * N.of_nat w) o d) c offs T) as (ver & rest & V & E & M).
  rewrite M, E. unfold shift_table.
  replace (P ++ (ver ++ be_enc 4 (lenN offs) ++ flat_map (be_enc w) offs ++ rest) ++ Q)
    with ((P ++ ver) ++ be_enc 4 (lenN offs) ++ flat_map (be_enc w) offs ++ rest ++ Q) by (now rewrite <- !app_assoc).
  rewrite dropN_app by (rewrite lenN_app; lia).
  rewrite (read_be_app 4) by (reflexivity || exact L). cbn [mord bind]. unfold lenN at 1. rewrite Nat2N.id.
  replace ((P ++ ver) ++ be_enc 4 (lenN offs) ++ flat_map (be_enc w) offs ++ rest ++ Q)
    with (((P ++ ver) ++ be_enc 4 (lenN offs)) ++ flat_map (be_enc w) offs ++ rest ++ Q) by (now rewrite <- !app_assoc).
  replace (lenN P + 4 + 4) with (lenN ((P ++ ver) ++ be_enc 4 (lenN offs))) by (rewrite !lenN_app, be_enc_len, V; lia).
  rewrite shift_entries_ok by auto. now rewrite <- !app_assoc.
Qed.
Lemma flat_words_len : forall w l, lenN (flat_map (be_enc w) l) = N.of_nat w * lenN l.
Proof. induction l; cbn [flat_map]. now rewrite N.mul_0_r. rewrite lenN_app, be_enc_len, IHl, lenN_cons. lia. Qed.
Lemma map_table_len : forall w g c offs, table w c offs -> lenN (map_table w g c) = lenN c.
Proof.
  intros. destruct (map_table_ok w g c offs H) as (ver & rest & V & E & M). rewrite M, E, !lenN_app, !flat_words_len, lenN_map. reflexivity.
Qed.
Lemma add_mod_32 : forall d from o, (if o <? from then o else add_mod (8 * N.of_nat 4) o d) = moved d from o.
Proof. reflexivity. Qed.

(** ** All tables of a tree *)
Definition visit (want : bytes) (k : catom) : list atom_info :=
  if is_fourcc want (a_ident (c_info k)) then [c_info k]
  else match a_ident (c_info k) with Fourcc _ => all_children want k | Freeform _ _ => [] end.
Lemma all_children_visit : forall want c, all_children want c = flat_map (visit want) (c_kids c).
Proof. intros want [i ks]. reflexivity. Qed.
Lemma shift_stco_app : forall a b d from v, shift_stco (a ++ b) d from v = let? v := shift_stco a d from v in shift_stco b d from v.
Proof.
  induction a as [|i a IH]; intros; cbn [app shift_stco bind]; auto. destruct (a_ext i); auto.
  destruct (shift_table 4 (a_start i + 12) d from v); cbn [bind]; auto.
Qed.
Lemma stco_not_container : ~ In ($"stco") CONTAINERS.
Proof. vm_compute. intuition discriminate. Qed.
Definition sound (b : box) : Prop :=
  every (fun b => lenN (box_name b) = 4 /\
    match b with Leaf _ id c => id = $"stco" -> exists offs, table 4 c offs | Node _ id _ => id <> $"stco" end) b.
Definition shifts (d : Z) (from : N) (b : box) : Prop := forall P Q, sound b ->
  shift_stco (visit ($"stco") (cat (lenN P) b)) d from (P ++ enc b ++ Q) = Ok (P ++ enc (shift_tables d from b) ++ Q) /\
  lenN (enc (shift_tables d from b)) = lenN (enc b).
Lemma shifts_list : forall d from ks, Forall (shifts d from) ks -> forall P Q, Forall sound ks ->
  shift_stco (flat_map (visit ($"stco")) (cats (lenN P) ks)) d from (P ++ encs ks ++ Q) = Ok (P ++ encs (map (shift_tables d from) ks) ++ Q) /\
  lenN (encs (map (shift_tables d from) ks)) = lenN (encs ks).
Proof.
  intros d from. induction 1 as [|k ks HK HKS IH]; intros P Q HS; cbn [cats flat_map map]; [split; reflexivity|]. inversion HS; subst.
  rewrite !encs_cons, !lenN_app, shift_stco_app, <- !app_assoc.
  destruct (HK P (encs ks ++ Q) H1) as [E1 E2]. rewrite E1. cbn [bind].
  rewrite <- E2, app_assoc. replace (lenN P + lenN (enc (shift_tables d from k))) with (lenN (P ++ enc (shift_tables d from k))) by apply lenN_app.
  destruct (IH (P ++ enc (shift_tables d from k)) Q H2) as [E3 E4]. rewrite E3, E4. split; [|reflexivity]. now rewrite <- !app_assoc.
Qed.
Lemma shifts_all : forall d from b, shifts d from b.
Proof.
  intros d from. induction b as [s id c|s id ks IH] using box_ind'; intros P Q HS.
  - destruct HS as [[HL HT] _]. cbn [box_name] in HL. unfold visit. rewrite cat_info. cbn [a_ident box_name is_fourcc shift_tables upd].
    destruct (list_eqb id ($"stco")) eqn:E.
    + apply list_eqb_eq in E. destruct (HT E) as [offs T]. cbn [shift_stco a_ext a_start enc].
      replace (P ++ (be_enc 4 s ++ id ++ c) ++ Q) with ((P ++ be_enc 4 s ++ id) ++ c ++ Q) by (now rewrite <- !app_assoc).
      replace (lenN P + 12) with (lenN (P ++ be_enc 4 s ++ id) + 4) by (rewrite !lenN_app, be_enc_len, HL; lia).
      rewrite (shift_table_ok 4 d from _ _ _ _ T). cbn [bind]. split; [now rewrite <- !app_assoc|].
      rewrite !lenN_app. rewrite (map_table_len _ _ _ _ T). reflexivity.
    + cbn [cat all_children c_kids flat_map shift_stco]. split; reflexivity.
  - apply every_node in HS. destruct HS as [[HL HN] HK]. cbn [box_name] in HL. unfold visit. rewrite cat_info. cbn [a_ident box_name is_fourcc].
    apply list_eqb_neq in HN. rewrite HN, all_children_visit, cat_node. cbn [c_kids shift_tables upd enc].
    fold (encs ks). fold (encs (map (shift_tables d from) ks)).
    destruct (shifts_list d from ks IH (P ++ be_enc 4 s ++ id) Q HK) as [E1 E2].
    replace (lenN (P ++ be_enc 4 s ++ id)) with (lenN P + 8) in E1 by (rewrite !lenN_app, be_enc_len, HL; lia).
    rewrite !lenN_app. fold (shift_tables d from). rewrite E2. split; [|reflexivity].
    rewrite <- !app_assoc in *. exact E1.
Qed.
(** No atom with the name *)
Lemma visit_none : forall want b pos, every (fun b => box_name b <> want) b -> visit want (cat pos b) = [].
Proof.
  intros want. induction b as [s id c|s id ks IH] using box_ind'; intros pos HE.
  - destruct HE as [HE _]. unfold visit. rewrite cat_info. cbn [a_ident]. rewrite is_fourcc_neq by exact HE. reflexivity.
  - apply every_node in HE. destruct HE as [HE HK]. unfold visit. rewrite cat_info. cbn [a_ident]. rewrite is_fourcc_neq by exact HE.
    rewrite all_children_visit, cat_node. cbn [c_kids]. generalize (pos + 8). clear HE.
    induction IH; intros p; cbn [cats flat_map]; auto. inversion HK; subst. rewrite H, IHIH by auto. reflexivity.
Qed.
Lemma visits_none : forall want ks pos, Forall (every (fun b => box_name b <> want)) ks -> flat_map (visit want) (cats pos ks) = [].
Proof. intros want ks pos H. revert pos. induction H; intros; cbn [cats flat_map]; auto. now rewrite visit_none, IHForall. Qed.
(** The size fields do not matter *)
Lemma cats_app : forall a b pos, cats pos (a ++ b) = cats pos a ++ cats (pos + lenN (encs a)) b.
Proof.
  induction a as [|x a IH]; intros; cbn [app cats]. now rewrite N.add_0_r. rewrite IH. do 3 f_equal. rewrite encs_cons, lenN_app. lia.
Qed.
