(** User defined texts (C236) and pictures (C237) of ID3v2 tags. *)
From Coq Require Import Permutation.
From Verif Require Import BaseLemmas ApeModel ApeProof FrameProof1 FrameProof2 Frame23Proof FrameListProof FrameListThm.
From Verif Require Import UserTextModel.

(** The texts that the frames say, with their descriptions, in the order of the frames. *)
Definition said (f : frame) : list (str * str) := match f with FUserText _ _ d c => [(d, c)] | _ => [] end.
Definition user_texts (l : list frame) : list (str * str) := flat_map said l.
Definition other_frames (l : list frame) : list frame := filter (fun f => match f with FUserText _ _ _ _ => false | _ => true end) l.
(** User defined texts have their name and no two the same description. *)
Definition txxx (f : frame) : Prop := match f with FUserText h _ _ _ => id_str (fh_id h) = $"TXXX" | _ => True end.
Definition keyed (l : list frame) : Prop := Forall txxx l /\ NoDup (map fst (user_texts l)).

(** ** What is read is so. *)
Lemma kind_user : forall s, kind_of_name s = KUserText -> s = $"TXXX".
Proof.
  intros s H. unfold kind_of_name in H. destruct (find _ KINDS) as [[n k]|] eqn:F.
  - apply find_some in F as [I E]. cbn [fst] in E. apply list_eqb_eq in E. subst n k. unfold KINDS in I. cbn [In] in I. repeat destruct I as [I|I]; try contradiction; try discriminate I. injection I as <-. reflexivity.
  - exfalso. destruct s as [|c s]; [discriminate H|]. destruct c as [|c]; [discriminate H|]. do 7 (destruct c as [c|c|]; try discriminate H).
Qed.
Lemma content_txxx : forall kids id fl v m r, id_ok id -> gives txxx (parse_content kids id fl v m r).
Proof.
  intros kids id fl v m r Hid. assert (X : forall h k p, (k = KUserText -> id_str (fh_id h) = $"TXXX") -> gives (shape kids h k) p -> gives txxx p).
  { intros h k p HK G. eapply gives_impl; [|exact G]. intros f (Hh & Hk & _). destruct f; cbn [txxx]; auto. cbn [f_header] in Hh. subst h. auto. }
  destruct id as [s|s].
  - rewrite dispatch. cbv zeta. pose proof (shapes kids (mkFH (Valid s) fl) v m r) as Sh. destruct (kind_of_name s) eqn:K;
    first [apply (X (mkFH (Valid s) fl) KUserText); [intros _; now apply kind_user|apply Sh]|eapply X; [|apply Sh]; discriminate].
  - rewrite dispatch3 by auto. cbv zeta. pose proof (shapes kids (mkFH (Outdated s) fl) v m r) as Sh.
    destruct (starts 84 s); [|destruct (starts 87 s)]; (eapply X; [|apply Sh]; discriminate).
Qed.
Lemma insert_from : forall f l g, In g (fst (fl_insert f l)) -> g = f \/ In g l.
Proof.
  intros f l g H. unfold fl_insert in H. destruct (in_names _ _).
  - cbn [fst] in H. apply in_app_or in H as [H|[<- |[]]]; [|now left]. right. apply (Permutation_in _ (remove_perm _ _)) in H. now apply filter_In in H.
  - pose proof (take_first_spec (fun g => frame_eqb g f) l) as T. destruct (take_first _ l) as [[x|] r]; cbn [fst] in H; apply in_app_or in H as [H|[<- |[]]]; auto; right.
    + destruct T as (a & b & -> & -> & _). apply in_app_or in H as [H|H]; apply in_or_app; cbn; auto.
    + destruct T as [-> _]. exact H.
Qed.
Lemma replaced_from : forall f l g, snd (fl_insert f l) = Some g -> In g l.
Proof.
  intros f l g H. unfold fl_insert in H. destruct (in_names _ _).
  - cbn [snd] in H. unfold fl_removed in H. destruct (filter _ l) eqn:F; [discriminate H|]. injection H as <-. apply (proj1 (filter_In (fun x => id_eqb (f_id x) (f_id f)) f0 l)). rewrite F. now left.
  - pose proof (take_first_spec (fun g => frame_eqb g f) l) as T. destruct (take_first _ l) as [[x|] r]; cbn [snd] in H; [|discriminate H]. injection H as <-. destruct T as (a & b & -> & _). apply in_or_app. right. now left.
Qed.
Section All.
  Variable Q : frame -> Prop.
  Lemma insert_all : forall f l, Q f -> Forall Q l -> Forall Q (fst (fl_insert f l)).
  Proof. intros f l Hf Hl. rewrite Forall_forall in *. intros g H. destruct (insert_from f l g H) as [-> |]; auto. Qed.
  Lemma add_all : forall f l, Q f -> Forall Q l -> Forall Q (add_read f l).
  Proof.
    intros f l Hf Hl. unfold add_read. pose proof (insert_all f l Hf Hl) as A. pose proof (replaced_from f l) as R. destruct (fl_insert f l) as [l' [g|]]; cbn [fst snd] in *; auto.
    assert (Hg : Q g) by (rewrite Forall_forall in Hl; auto). destruct (f_is_empty f) as [[|]|]; auto. destruct (f_is_empty g) as [[|]|]; auto. now apply insert_all.
  Qed.
  Lemma remove_all : forall id l, Forall Q l -> Forall Q (fl_remove id l).
  Proof. intros id l H. rewrite Forall_forall in *. intros g I. apply (Permutation_in _ (remove_perm _ _)) in I. apply filter_In in I as [I _]. auto. Qed.
  Hypothesis times : forall e t, Q (FTime (mkFH TDRC ff_default) e t).
  Lemma construct_all : forall l, Forall Q l -> Forall Q (construct_tdrc l).
  Proof.
    intros l H. unfold construct_tdrc. destruct (hd_error (fl_removed TDRC l)) as [f|] eqn:E; auto.
    assert (Hf : Q f). { unfold fl_removed in E. destruct (filter _ l) eqn:F; [discriminate|]. injection E as ->. rewrite Forall_forall in H. apply H. apply (proj1 (filter_In (fun f => id_eqb (f_id f) TDRC) f l)). rewrite F. now left. }
    destruct f; try (apply insert_all; [exact Hf|now apply remove_all]).
    destruct (ts_month t). { now apply remove_all. } cbv zeta. destruct (text_pair TDAT _) as [[d m]|]; [|auto using remove_all, insert_all]. destruct (text_pair TIME _) as [[hh mm]|]; auto 6 using remove_all, insert_all.
  Qed.
End All.
Lemma read_frame_txxx : forall inflate kids v u o r f r', read_frame inflate kids v u o r = Ok (PNext f, r') -> txxx f.
Proof.
  intros inflate kids v u o r f r' E. unfold read_frame in E.
  assert (Hh : match (if is_v2 v then parse_v2_header r else parse_header (is_v4 v) (fo_implicit o) r) with HOk id _ _ _ => id_ok id | _ => True end)
    by (destruct (is_v2 v); [apply v2_header_ok|apply header_id_ok]).
  destruct (if is_v2 v then parse_v2_header r else parse_header (is_v4 v) (fo_implicit o) r) as [|size rest|id fl size rest]; [discriminate E| |].
  { destruct (is_strict (fo_mode o)); discriminate E. }
  destruct (negb (fo_cover o) && id_eqb id (Valid $"APIC")); [discriminate E|]. cbv zeta in E.
  destruct (size =? 0). { destruct (is_strict (fo_mode o)); discriminate E. }
  destruct (read_extras _ size rest) as [[[fl' size'] rest']| |]; cbn [bind] in E; try discriminate E.
  destruct (size' =? 0); [discriminate E|].
  set (plain := if ff_unsync fl' then resynchronise (takeN size' rest') else takeN size' rest') in *.
  assert (EN : forall c p (x : bytes), (let? q := encrypted_frame id fl' size' c in Ok (q, x)) = Ok (PNext f, p) -> txxx f).
  { intros c p x H. unfold encrypted_frame in H. destruct (ff_length fl'); cbn [bind] in H; [|discriminate H].
    destruct (read_exact size' c) as [[b y]|]; cbn [from_opt bind] in H; [|discriminate H]. injection H as <- _. exact I. }
  assert (CN : forall c p, content_frame (parse_content kids id fl' v (fo_mode o) c) = Ok (PNext f, p) -> txxx f).
  { intros c p H. unfold content_frame in H. pose proof (content_txxx kids id fl' v (fo_mode o) c Hh) as G.
    destruct (parse_content kids id fl' v (fo_mode o) c) as [[[g|] x]| |]; cbn [bind gives] in *; try discriminate H. injection H as -> _. exact G. }
  destruct (ff_compression fl').
  - destruct (inflate plain) as [c|]; cbn [from_opt bind] in E; [|discriminate E]. destruct (is_some (ff_encryption fl')).
    + eapply EN. exact E.
    + destruct (content_frame _) as [[p x]| |] eqn:C; cbn [bind] in E; try discriminate E. injection E as -> _. eapply CN; eauto.
  - destruct (is_some (ff_encryption fl')).
    + eapply EN. exact E.
    + destruct (content_frame _) as [[p x]| |] eqn:C; cbn [bind] in E; try discriminate E. injection E as -> _. eapply CN; eauto.
Qed.
Lemma read_all_txxx : forall inflate fuel v u o acc r l y, Forall txxx acc -> read_all inflate fuel v u o acc r = Ok (l, y) -> Forall txxx l.
Proof.
  induction fuel as [|fuel IH]; intros v u o acc r l y T E. discriminate E. cbn [read_all] in E.
  destruct (read_frame _ _ v u o r) as [[p r']| |] eqn:R; cbn [bind] in E; try discriminate E. destruct p.
  - apply read_frame_txxx in R. eapply IH; [|exact E]. now apply add_all.
  - eapply IH; eauto.
  - injection E as <- _. auto.
Qed.
Lemma tidy_keyed : forall l, tidy l -> Forall txxx l -> keyed l.
Proof.
  intros l T F. split; [exact F|]. apply tidy_inv in T as (S & ND & _). clear F. induction l as [|f l IH]; [constructor|]. cbn [map] in ND. apply NoDup_cons_iff in ND as [N1 N2]. apply Forall_cons_iff in S as [S1 S2].
  unfold user_texts. cbn [flat_map]. rewrite map_app. fold (user_texts l). destruct f; cbn [said map app]; auto. constructor; [|auto]. intros I. apply N1. apply in_map_iff in I as ((d & c) & D & I). cbn [fst] in D. subst d.
  apply in_flat_map in I as (g & Ig & E). destruct g; try contradiction. destruct E as [E|[]]. injection E as -> ->. apply in_map_iff. exists (FUserText h0 e0 desc c). split; [|exact Ig].
  rewrite Forall_forall in S2. specialize (S2 _ Ig). unfold identity_of. destruct (in_names (f_name (FUserText h0 e0 desc c)) ONE_PER_TAG) eqn:A. { exfalso. destruct (S2 A) as [X|[X|X]]; discriminate X. }
  destruct (in_names (f_name (FUserText h e desc content)) ONE_PER_TAG) eqn:B. { exfalso. destruct (S1 B) as [X|[X|X]]; discriminate X. } reflexivity.
Qed.
Theorem C236_read : forall inflate h o r t rest, parse_id3v2 inflate h o r = Ok (t, rest) -> keyed (t_frames t).
Proof.
  intros inflate h o r t rest E. apply tidy_keyed. { eapply C142_read. exact E. } unfold parse_id3v2 in E. cbv zeta in E.
  destruct (read_all _ _ _ _ _ _ _) as [[l y]| |] eqn:R; cbn [bind] in E; try discriminate E. injection E as <- _. cbn [t_frames].
  apply read_all_txxx in R; [|constructor]. destruct (_ && _); auto. apply construct_all; auto. intros; exact I.
Qed.

(** ** A text is found by its description. *)
Lemma find_desc : forall d l, Forall txxx l -> find (has_desc d) (filter (fun f => list_eqb (f_name f) ($"TXXX")) l) = find (has_desc d) l.
Proof.
  induction l as [|f l IH]; intros H; [reflexivity|]. apply Forall_cons_iff in H as [H1 H2]. specialize (IH H2). cbn [filter find]. destruct (list_eqb (f_name f) ($"TXXX")) eqn:E.
  - cbn [find]. now rewrite IH.
  - destruct f; cbn [has_desc]; auto. exfalso. cbn [txxx] in H1. unfold f_name, f_id in E. cbn [f_header] in E. rewrite H1 in E. discriminate E.
Qed.
Lemma has_desc_is : forall d f, has_desc d f = true <-> exists h e c, f = FUserText h e d c.
Proof.
  intros d f. split.
  - destruct f; try discriminate. cbn [has_desc]. intros H. apply list_eqb_eq in H. subst. eauto.
  - intros (h & e & c & ->). cbn [has_desc]. now apply list_eqb_eq.
Qed.
Theorem C236_get : forall l d c, keyed l -> (get_user_text d l = Some c <-> In (d, c) (user_texts l)).
Proof.
  intros l d c [F ND]. unfold get_user_text. rewrite find_desc by auto. clear F. induction l as [|f l IH]; [split; [discriminate|contradiction]|].
  unfold user_texts in *. cbn [flat_map] in *. rewrite map_app in ND. cbn [find]. destruct (has_desc d f) eqn:H.
  - apply has_desc_is in H as (h & e & c' & ->). cbn [said map app fst] in *. apply NoDup_cons_iff in ND as [N1 _]. split.
    + intros [= ->]. now left.
    + intros [E|E]; [now injection E as ->|]. exfalso. apply N1. apply in_map_iff. exists (d, c). auto.
  - assert (ND2 : NoDup (map fst (flat_map said l))) by (destruct f; cbn [said map app] in ND; auto; now apply NoDup_cons_iff in ND). rewrite (IH ND2). split; [intros; apply in_or_app; now right|].
    intros I. apply in_app_or in I as [I|I]; auto. exfalso. destruct f; try contradiction. destruct I as [I|[]]. injection I as -> ->. cbn [has_desc] in H. rewrite (proj2 (list_eqb_eq _ _) eq_refl) in H. discriminate H.
Qed.
Lemma eqb_desc : forall d c g, frame_eqb g (user_text d c) = has_desc d g.
Proof. intros d c g. destruct g; reflexivity. Qed.
Lemma texts_app : forall a b, user_texts (a ++ b) = user_texts a ++ user_texts b.
Proof. intros. unfold user_texts. apply flat_map_app. Qed.
(** Removing takes out that text, the rest stays in its place. *)
Theorem C236_remove : forall l d, keyed l -> let '(old, r) := remove_user_text d l in
  keyed r /\ get_user_text d r = None /\ (forall d', d' <> d -> get_user_text d' r = get_user_text d' l) /\ other_frames r = other_frames l /\
  user_texts r = filter (fun p => negb (list_eqb (fst p) d)) (user_texts l) /\
  match old with Some f => exists h e c, f = FUserText h e d c /\ get_user_text d l = Some c | None => r = l /\ get_user_text d l = None end.
Proof.
  intros l d K. pose proof K as [F ND]. pose proof (take_first_spec (has_desc d) l) as T. unfold remove_user_text. destruct (take_first (has_desc d) l) as [[f|] r].
  - destruct T as (a & b & -> & -> & Hf & Fa). apply has_desc_is in Hf as (h & e & c & ->). rewrite texts_app in ND. change (user_texts (FUserText h e d c :: b)) with ((d, c) :: user_texts b) in ND. rewrite map_app in ND. cbn [map fst] in ND.
    assert (ND' : NoDup (map fst (user_texts (a ++ b)))) by (rewrite texts_app, map_app; now apply NoDup_remove_1 in ND). apply NoDup_remove_2 in ND.
    assert (K' : keyed (a ++ b)). { split; auto. apply Forall_app in F as [F1 F2]. apply Forall_cons_iff in F2 as [_ F2]. apply Forall_app. auto. }
    assert (NI : forall x, ~ In (d, x) (user_texts (a ++ b))). { intros x I. apply ND. rewrite <- map_app, <- texts_app. apply in_map_iff. exists (d, x). auto. }
    split; [exact K'|]. split; [|split; [|split; [|split]]].
    + destruct (get_user_text d (a ++ b)) as [x|] eqn:G; auto. apply C236_get in G; auto. now apply NI in G.
    + intros d' D. assert (X : forall x, get_user_text d' (a ++ b) = Some x <-> get_user_text d' (a ++ FUserText h e d c :: b) = Some x).
      { intros x. rewrite !C236_get by auto. rewrite !texts_app. change (user_texts (FUserText h e d c :: b)) with ((d, c) :: user_texts b). rewrite !in_app_iff. cbn [In]. split; [tauto|]. intros [I|[I|I]]; auto. injection I as -> _. contradiction. }
      destruct (get_user_text d' (a ++ b)) as [x|]. { symmetry. now apply X. } destruct (get_user_text d' (a ++ _)) as [x|]; auto. now apply X.
    + unfold other_frames. now rewrite !filter_app.
    + assert (FI : forall q : list (str * str), (forall x, ~ In (d, x) q) -> filter (fun p => negb (list_eqb (fst p) d)) q = q).
      { clear. induction q as [|[k v] q IH]; intros H; auto. cbn [filter fst]. destruct (list_eqb k d) eqn:E. { apply list_eqb_eq in E. subst k. exfalso. apply (H v). now left. } cbn [negb]. f_equal. apply IH. intros x I. apply (H x). now right. }
      rewrite !texts_app. change (user_texts (FUserText h e d c :: b)) with ((d, c) :: user_texts b). rewrite filter_app. cbn [filter fst]. rewrite (proj2 (list_eqb_eq d d) eq_refl). cbn [negb]. rewrite !FI; auto; intros x I; apply (NI x); rewrite texts_app; apply in_or_app; auto.
    + exists h, e, c. split; auto. apply C236_get; auto. rewrite texts_app. apply in_or_app. right. now left.
  - destruct T as (-> & Fa). assert (NO : forall x, ~ In (d, x) (user_texts l)). { intros x I. apply in_flat_map in I as (g & Ig & E). destruct g; try contradiction. destruct E as [E|[]]. injection E as -> ->. rewrite Forall_forall in Fa. specialize (Fa _ Ig). cbn [has_desc] in Fa. rewrite (proj2 (list_eqb_eq d d) eq_refl) in Fa. discriminate Fa. }
    assert (G : get_user_text d l = None) by (destruct (get_user_text d l) as [x|] eqn:G; auto; apply C236_get in G; auto; now apply NO in G).
    repeat split; auto. clear - NO. induction (user_texts l) as [|[k v] q IH]; auto. cbn [filter fst]. destruct (list_eqb k d) eqn:E. { apply list_eqb_eq in E. subst k. exfalso. apply (NO v). now left. } cbn [negb]. f_equal. apply IH. intros x I. apply (NO x). now right.
Qed.
(** Setting a text replaces the one with that description and no other; the new one is the last frame. *)
Theorem C236_insert : forall l d c, keyed l -> let '(r, old) := insert_user_text d c l in
  keyed r /\ get_user_text d r = Some c /\ (forall d', d' <> d -> get_user_text d' r = get_user_text d' l) /\ other_frames r = other_frames l /\
  user_texts r = filter (fun p => negb (list_eqb (fst p) d)) (user_texts l) ++ [(d, c)] /\
  match old with Some f => exists h e c', f = FUserText h e d c' /\ get_user_text d l = Some c' | None => get_user_text d l = None end.
Proof.
  intros l d c K. pose proof (C236_remove l d K) as R. unfold insert_user_text, fl_insert. change (in_names (f_name (user_text d c)) ONE_PER_TAG) with false. cbv iota.
  assert (EQ : take_first (fun g => frame_eqb g (user_text d c)) l = remove_user_text d l). { unfold remove_user_text. clear. induction l as [|f l IH]; [reflexivity|]. cbn [take_first]. rewrite eqb_desc. now destruct (has_desc d f). }
  rewrite EQ. destruct (remove_user_text d l) as [old r]. destruct R as (K' & G & O & OF & U & M).
  assert (UT : user_texts (r ++ [user_text d c]) = user_texts r ++ [(d, c)]) by (rewrite texts_app; reflexivity).
  assert (ND : ~ In d (map fst (user_texts r))). { intros I. apply in_map_iff in I as ((k & v) & E & I). cbn [fst] in E. subst k. apply (proj2 (C236_get r d v K')) in I. congruence. }
  assert (KK : keyed (r ++ [user_text d c])). { split. { apply Forall_app. split; [apply K'|]. repeat constructor. } rewrite UT, map_app. cbn [map fst]. apply NoDup_Add with (a := d) (l := map fst (user_texts r)); [|split; [apply K'|exact ND]]. rewrite <- (app_nil_r (map fst (user_texts r))) at 1. apply Add_app. }
  split; [exact KK|]. split; [|split; [|split; [|split]]].
  - apply C236_get; auto. rewrite UT. apply in_or_app. right. now left.
  - intros d' D. rewrite <- O by auto. assert (X : forall x, get_user_text d' (r ++ [user_text d c]) = Some x <-> get_user_text d' r = Some x).
    { intros x. rewrite !C236_get by auto. rewrite UT, in_app_iff. cbn [In]. split; [|tauto]. intros [I|[I|[]]]; auto. injection I as -> _. contradiction. }
    destruct (get_user_text d' r) as [x|]. { now apply X. } destruct (get_user_text d' (r ++ _)) as [x|]; auto. symmetry. now apply X.
  - unfold other_frames in *. rewrite filter_app, OF. cbn [filter user_text]. apply app_nil_r.
  - rewrite UT. congruence.
  - destruct old as [f|]; [exact M|apply M].
Qed.
(** A text that was read with another letter case is another text. *)
Example C236_example : let l := [FText (new_header ($"TIT2")) UTF8 ($"T"); user_text ($"Mood") ($"calm"); user_text ($"MOOD") ($"wild")] in
  keyed l /\ get_user_text ($"Mood") l = Some ($"calm") /\ get_user_text ($"mood") l = None /\ fst (insert_user_text ($"Mood") ($"new") l) = [FText (new_header ($"TIT2")) UTF8 ($"T"); user_text ($"MOOD") ($"wild"); user_text ($"Mood") ($"new")].
Proof. split; [|repeat split]. split; repeat constructor; cbn; intuition discriminate. Qed.
(** Without distinct descriptions (a frame was changed in place by retain_mut) removing leaves the second. *)
Theorem C236_twice_refuted : exists l, Forall txxx l /\ get_user_text ($"A") (snd (remove_user_text ($"A") l)) <> None.
Proof. exists [user_text ($"A") ($"1"); user_text ($"A") ($"2")]. split; [repeat constructor|discriminate]. Qed.

(** The values of a text frame are its text between null characters. *)
Fixpoint with_nulls (l : list str) : str := match l with [] => [] | [s] => s | s :: l' => s ++ 0 :: with_nulls l' end.
Lemma split_ne : forall s, split_all 0 s <> [].
Proof. intros [|c s]; [discriminate|]. cbn [split_all]. destruct (c =? 0); [discriminate|]. destruct (split_all 0 s); discriminate. Qed.
Lemma split_spec : forall s, Forall (fun v => ~ In 0 v) (split_all 0 s) /\ with_nulls (split_all 0 s) = s.
Proof.
  induction s as [|c s [F J]]; [split; [repeat constructor; auto|reflexivity]|]. pose proof (split_ne s) as NE. cbn [split_all]. destruct (N.eqb_spec c 0) as [->|C].
  - split; [constructor; auto|]. destruct (split_all 0 s) as [|w ws] eqn:E; [contradiction|]. change (with_nulls ([] :: w :: ws)) with (0 :: with_nulls (w :: ws)). now rewrite J.
  - destruct (split_all 0 s) as [|w ws]; [contradiction|]. apply Forall_cons_iff in F as [F1 F2]. split; [constructor; auto; intros [X|X]; auto|]. destruct ws; cbn [with_nulls app] in *; now rewrite J.
Qed.
Theorem C236_values : forall id l, match fl_get_texts id l with
  | Some vs => vs <> [] /\ Forall (fun v => ~ In 0 v) vs /\ fl_get_text id l = Some (with_nulls vs)
  | None => fl_get_text id l = None end.
Proof.
  intros id l. unfold fl_get_texts, fl_get_text. destruct (fl_get id l) as [[]|]; auto. destruct (split_spec value) as [F J]. split; [apply split_ne|]. split; [exact F|]. now rewrite J.
Qed.
Example C236_values_example : fl_get_texts (Valid ($"TPE1")) [FText (new_header ($"TPE1")) UTF8 ($"A" ++ [0] ++ $"B")] = Some [$"A"; $"B"].
Proof. reflexivity. Qed.

(** ** Pictures *)
Definition shown (f : frame) : list picture := match f with FPicture _ _ p => [p] | _ => [] end.
Definition pictures_of (l : list frame) : list picture := flat_map shown l.
Definition no_pictures (l : list frame) : list frame := filter (fun f => match f with FPicture _ _ _ => false | _ => true end) l.
Definition of_type (t : pic_type) (p : picture) : bool := if ptype_dec (p_type p) t then true else false.
Lemma pics_app : forall a b, pictures_of (a ++ b) = pictures_of a ++ pictures_of b.
Proof. intros. unfold pictures_of. apply flat_map_app. Qed.
(** Removing a type takes out all pictures of that type and nothing else. *)
Theorem C237_remove : forall t l, pictures_of (remove_picture_type t l) = filter (fun p => negb (of_type t p)) (pictures_of l) /\ no_pictures (remove_picture_type t l) = no_pictures l.
Proof.
  intros t l. unfold remove_picture_type. split.
  - induction l as [|f l IH]; auto. unfold pictures_of in *. cbn [filter flat_map]. rewrite filter_app, <- IH. destruct f; cbn [is_pic negb shown app filter flat_map]; auto. unfold of_type, yes. destruct (ptype_dec (p_type p) t); reflexivity.
  - unfold no_pictures. induction l as [|f l IH]; auto. cbn [filter]. destruct f; cbn [is_pic negb filter]; rewrite ?IH; auto. destruct (yes _); cbn [negb filter]; auto.
Qed.
(** Pictures are added at the end; an icon takes the place of the one of its type. *)
Theorem C237_insert : forall p l, let '(r, old) := fl_insert_picture p l in no_pictures r = no_pictures l /\
  ((p_type p <> PIcon /\ p_type p <> POtherIcon) -> old = None /\ pictures_of r = pictures_of l ++ [p]) /\
  ((p_type p = PIcon \/ p_type p = POtherIcon) -> lenN (filter (of_type (p_type p)) (pictures_of l)) <= 1 ->
    pictures_of r = filter (fun q => negb (of_type (p_type p) q)) (pictures_of l) ++ [p] /\
    match old with Some f => exists h e q, f = FPicture h e q /\ In q (pictures_of l) /\ p_type q = p_type p | None => forall q, In q (pictures_of l) -> p_type q <> p_type p end).
Proof.
  intros p l. assert (END : forall r, pictures_of (r ++ [new_picture p]) = pictures_of r ++ [p]) by (intros; rewrite pics_app; reflexivity).
  assert (NP : forall r, no_pictures (r ++ [new_picture p]) = no_pictures r) by (intros; unfold no_pictures; rewrite filter_app; apply app_nil_r).
  unfold fl_insert_picture. assert (D : (p_type p = PIcon \/ p_type p = POtherIcon) \/ (p_type p <> PIcon /\ p_type p <> POtherIcon)) by (destruct (p_type p); auto; right; split; discriminate).
  destruct D as [D|D].
  - replace (match p_type p with PIcon | POtherIcon => take_first (is_pic (p_type p)) l | _ => (None, l) end) with (take_first (is_pic (p_type p)) l) by (destruct D as [-> | ->]; reflexivity).
    set (t := p_type p) in *. pose proof (take_first_spec (is_pic t) l) as T.
    assert (NOP : forall q, Forall (fun f => is_pic t f = false) q -> filter (of_type t) (pictures_of q) = [] /\ filter (fun x => negb (of_type t x)) (pictures_of q) = pictures_of q).
    { clear. clearbody t. clear p. induction q as [|f q IH]; intros H; [split; reflexivity|]. apply Forall_cons_iff in H as [H1 H2]. destruct (IH H2) as [A B]. unfold pictures_of in *. cbn [flat_map]. rewrite !filter_app, A, B. destruct f; cbn [shown filter app]; auto. cbn [is_pic] in H1. unfold of_type, yes in *. destruct (ptype_dec (p_type p) t); [discriminate H1|]. split; reflexivity. }
    destruct (take_first (is_pic t) l) as [[f|] r].
    + destruct T as (a & b & -> & -> & Hf & Fa). destruct f; try discriminate Hf. cbn [is_pic] in Hf. unfold yes in Hf. destruct (ptype_dec (p_type p0) t) as [PT|]; [|discriminate Hf].
      split. { rewrite NP. unfold no_pictures. now rewrite !filter_app. } split. { intros [X Y]. destruct D; contradiction. }
      intros _ L. rewrite pics_app in L. change (pictures_of (FPicture h e p0 :: b)) with (p0 :: pictures_of b) in *. rewrite filter_app in L. destruct (NOP a Fa) as [A1 A2]. rewrite A1 in L. cbn [app filter] in L.
      assert (OT : of_type t p0 = true) by (unfold of_type; destruct (ptype_dec (p_type p0) t); auto). rewrite OT, lenN_cons in L. assert (B1 : filter (of_type t) (pictures_of b) = []) by (destruct (filter _ _); [reflexivity|rewrite lenN_cons in L; lia]).
      assert (B2 : filter (fun x => negb (of_type t x)) (pictures_of b) = pictures_of b). { clear - B1. induction (pictures_of b) as [|x q IH]; auto. cbn [filter] in *. destruct (of_type t x); [discriminate B1|]. cbn [negb]. now rewrite IH. }
      split. { rewrite END, !pics_app. change (pictures_of (FPicture h e p0 :: b)) with (p0 :: pictures_of b). rewrite filter_app. cbn [filter]. rewrite OT. cbn [negb]. now rewrite A2, B2. }
      exists h, e, p0. split; auto. split; auto. rewrite pics_app. apply in_or_app. right. now left.
    + destruct T as (-> & Fa). destruct (NOP l Fa) as [A1 A2]. split; [apply NP|]. split. { intros [X Y]. destruct D; contradiction. } intros _ _. split. { now rewrite END, A2. }
      intros q Iq E. assert (X : In q (filter (of_type t) (pictures_of l))). { apply filter_In. split; auto. unfold of_type. destruct (ptype_dec (p_type q) t); auto. } rewrite A1 in X. contradiction.
  - replace (match p_type p with PIcon | POtherIcon => take_first (is_pic (p_type p)) l | _ => (None, l) end) with (@None frame, l) by (destruct D as [D1 D2]; destruct (p_type p); congruence).
    split; [apply NP|]. split; [auto|]. intros [X|X]; destruct D; contradiction.
Qed.
(** Two icons: [insert] does not look at the type, and one of them stays. *)
Theorem C237_icons_refuted : forall m m' d, m <> m' -> let p := mkPic PIcon (Some m) None d in let q := mkPic PIcon (Some m') None d in
  pictures_of (fst (fl_insert (new_picture q) (fst (fl_insert_picture p [])))) = [p; q] /\
  pictures_of (fst (fl_insert_picture p (fst (fl_insert (new_picture q) (fst (fl_insert_picture p [])))))) = [q; p].
Proof.
  intros m m' d N p q. unfold fl_insert. change (in_names (f_name (new_picture q)) ONE_PER_TAG) with false. cbv iota.
  assert (E : frame_eqb (new_picture p) (new_picture q) = false). { cbn [new_picture frame_eqb]. rewrite !andb_false_iff. right. unfold yes. destruct (picture_dec p q) as [X|]; auto. exfalso. unfold p, q in X. congruence. }
  change (fst (fl_insert_picture p [])) with [new_picture p]. cbn [take_first]. rewrite E. split; reflexivity.
Qed.
(** The same picture can be there twice. *)
Theorem C237_twice_refuted : forall p l, p_type p <> PIcon -> p_type p <> POtherIcon -> pictures_of (fst (fl_insert_picture p (fst (fl_insert_picture p l)))) = pictures_of l ++ [p; p].
Proof.
  intros p l A B. pose proof (C237_insert p l) as H. pose proof (C237_insert p (fst (fl_insert_picture p l))) as G. destruct (fl_insert_picture p l) as [r o]. cbn [fst] in *. destruct (fl_insert_picture p r) as [r' o']. cbn [fst].
  destruct H as (_ & H & _). destruct G as (_ & G & _). destruct (H (conj A B)) as [_ H']. destruct (G (conj A B)) as [_ G']. rewrite G', H', <- app_assoc. reflexivity.
Qed.
Example C237_example : let p := fun t d => mkPic t None None [d] in
  pictures_of (fst (fl_insert_picture (p PIcon 3) [new_picture (p PIcon 1); new_picture (p PCoverFront 2)])) = [p PCoverFront 2; p PIcon 3] /\
  pictures_of (remove_picture_type PCoverFront [new_picture (p PIcon 1); new_picture (p PCoverFront 2); new_picture (p PCoverFront 4)]) = [p PIcon 1].
Proof. split; reflexivity. Qed.
