(** Proofs about the conversion of an ID3v2 tag to a Tag and back: each kind of frame. *)
From Coq Require Import Permutation.
From Verif Require Import BaseLemmas StrLemmas FrameProof2 FrameListProof Frame23Proof ApeProof TimestampThm PopmThm ItemKeyThm Id3v2TagProof.
From Verif Require Import Id3v2TagSpec.

(** *** Running items through the context *)
Section Run.
Variables (custom : provider) (owned : bool).
Notation run := (items_to_frames custom owned).
Lemma run_app : forall a b c, run c (a ++ b) = let '(c1, d1) := run c a in let '(c2, d2) := run c1 b in (c2, d1 ++ d2).
Proof.
  induction a as [|i a IH]; intros; cbn [app items_to_frames].
  - destruct (run c b); reflexivity.
  - destruct (item_to_frame custom owned c i) as [c0 o]. rewrite IH. destruct (run c0 a) as [c1 d1]. destruct (run c1 b) as [c2 d2].
    destruct o; reflexivity.
Qed.
Definition set_text c m := mkCtx (c_tipl c) m (c_txxx c) (c_comm c) (c_uslt c) (c_track c) (c_track_total c) (c_disc c) (c_disc_total c).
Definition set_txxx c m := mkCtx (c_tipl c) (c_text c) m (c_comm c) (c_uslt c) (c_track c) (c_track_total c) (c_disc c) (c_disc_total c).
Definition set_comm c m := mkCtx (c_tipl c) (c_text c) (c_txxx c) m (c_uslt c) (c_track c) (c_track_total c) (c_disc c) (c_disc_total c).
Definition set_uslt c m := mkCtx (c_tipl c) (c_text c) (c_txxx c) (c_comm c) m (c_track c) (c_track_total c) (c_disc c) (c_disc_total c).
Definition set_tipl c m := mkCtx m (c_text c) (c_txxx c) (c_comm c) (c_uslt c) (c_track c) (c_track_total c) (c_disc c) (c_disc_total c).

Lemma step_text : forall c i s, target_of (it_key i) = ToText -> item_string owned i = Some s ->
  item_to_frame custom owned c i = (set_text c (map_extend list_eqb (mapped_key (it_key i)) s (c_text c)), None).
Proof. intros c i s T S. destruct c. unfold item_to_frame. rewrite T, S. reflexivity. Qed.
Lemma step_user : forall c i s, target_of (it_key i) = ToUser -> item_string owned i = Some s ->
  item_to_frame custom owned c i = (set_txxx c (map_extend list_eqb (mapped_key (it_key i)) s (c_txxx c)), None).
Proof. intros c i s T S. destruct c. unfold item_to_frame. rewrite T, S. reflexivity. Qed.
Lemma step_gain : forall c i s, target_of (it_key i) = ToGain -> item_string owned i = Some s ->
  item_to_frame custom owned c i = (set_txxx c (map_put list_eqb (mapped_key (it_key i)) s (c_txxx c)), None).
Proof. intros c i s T S. destruct c. unfold item_to_frame. rewrite T, S. reflexivity. Qed.
Lemma step_comm : forall c i s, target_of (it_key i) = ToComm -> item_string owned i = Some s ->
  item_to_frame custom owned c i = (set_comm c (map_extend lang_desc_eqb (it_lang i, it_desc i) s (c_comm c)), None).
Proof. intros c i s T S. destruct c. unfold item_to_frame. rewrite T, S. reflexivity. Qed.
Lemma step_uslt : forall c i s, target_of (it_key i) = ToUslt -> item_string owned i = Some s ->
  item_to_frame custom owned c i = (set_uslt c (map_extend lang_desc_eqb (it_lang i, it_desc i) s (c_uslt c)), None).
Proof. intros c i s T S. destruct c. unfold item_to_frame. rewrite T, S. reflexivity. Qed.
Lemma step_tipl : forall c i s n, target_of (it_key i) = ToOther -> tipl_name (it_key i) = Some n -> item_string owned i = Some s ->
  item_to_frame custom owned c i = (set_tipl c (c_tipl c ++ [(n, s)]), None).
Proof. intros c i s n T Nm S. destruct c. unfold item_to_frame. rewrite T, S, Nm. reflexivity. Qed.
Lemma step_other : forall c i s, target_of (it_key i) = ToOther -> tipl_name (it_key i) = None -> item_string owned i = Some s ->
  item_to_frame custom owned c i =
  (c, match map_key Id3v2 (it_key i) with
      | Some m => if lenN m =? 4 then
                    match frame_id_new m with
                    | Some _ => if starts 84 m then Some (text_frame m s) else if starts 87 m then Some (url_frame m s) else None
                    | None => None
                    end else None
      | None => None
      end).
Proof. intros c i s T Nm S. destruct c. unfold item_to_frame. rewrite T, S, Nm. reflexivity. Qed.

(** *** Values of one map entry *)
Lemma extend_new : forall K (eqb : K -> K -> bool) k v m, Forall (fun e => eqb k (fst e) = false) m -> map_extend eqb k v m = m ++ [(k, v)].
Proof. induction m as [|[k' v'] m IH]; intros H; auto. apply Forall_cons_iff in H as [H1 H2]. cbn [map_extend fst app] in *. rewrite H1, IH; auto. Qed.
Lemma extend_old : forall K (eqb : K -> K -> bool) k v v' m, Forall (fun e => eqb k (fst e) = false) m -> eqb k k = true ->
  map_extend eqb k v (m ++ [(k, v')]) = m ++ [(k, v' ++ [0] ++ v)].
Proof.
  induction m as [|[k' v''] m IH]; intros H R; cbn [app map_extend]. now rewrite R.
  apply Forall_cons_iff in H as [H1 H2]. cbn [fst] in H1. rewrite H1, IH; auto.
Qed.
Lemma put_new : forall K (eqb : K -> K -> bool) k v m, Forall (fun e => eqb k (fst e) = false) m -> map_put eqb k v m = m ++ [(k, v)].
Proof. induction m as [|[k' v'] m IH]; intros H; auto. apply Forall_cons_iff in H as [H1 H2]. cbn [map_put fst app] in *. rewrite H1, IH; auto. Qed.

Lemma run_text_more : forall k l c m v, target_of k = ToText -> Forall (fun e => list_eqb (mapped_key k) (fst e) = false) m ->
  c_text c = m ++ [(mapped_key k, v)] ->
  run c (map (text_item k) l) = (set_text c (m ++ [(mapped_key k, joined 0 (v :: l))]), []).
Proof.
  induction l as [|s l IH]; intros c m v T F E. cbn. rewrite <- E. destruct c; reflexivity.
  cbn [map items_to_frames]. rewrite (step_text c _ s) by (auto; destruct owned; reflexivity). cbn [it_key text_item new_item].
  rewrite E, extend_old by (auto; apply list_eqb_refl). erewrite IH; [|auto|exact F|reflexivity]. unfold set_text. cbn [c_tipl c_text c_txxx c_comm c_uslt c_track c_track_total c_disc c_disc_total].
  replace (joined 0 (v :: s :: l)) with (joined 0 ((v ++ [0] ++ s) :: l)); auto.
  destruct l as [|w l]; auto. change (joined 0 (v :: s :: w :: l)) with (v ++ [0] ++ s ++ [0] ++ joined 0 (w :: l)).
  change (joined 0 ((v ++ [0] ++ s) :: w :: l)) with ((v ++ [0] ++ s) ++ [0] ++ joined 0 (w :: l)). now rewrite <- !app_assoc.
Qed.
Lemma run_text : forall k l c, target_of k = ToText -> l <> [] -> Forall (fun e => list_eqb (mapped_key k) (fst e) = false) (c_text c) ->
  run c (map (text_item k) l) = (set_text c (c_text c ++ [(mapped_key k, joined 0 l)]), []).
Proof.
  intros k [|s l] c T N F; [congruence|]. cbn [map items_to_frames]. rewrite (step_text c _ s) by (auto; destruct owned; reflexivity).
  cbn [it_key text_item new_item]. rewrite extend_new by auto. erewrite run_text_more; [|auto|exact F|reflexivity]. destruct c. reflexivity.
Qed.
Lemma run_user_more : forall k l c m v, target_of k = ToUser -> Forall (fun e => list_eqb (mapped_key k) (fst e) = false) m ->
  c_txxx c = m ++ [(mapped_key k, v)] ->
  run c (map (text_item k) l) = (set_txxx c (m ++ [(mapped_key k, joined 0 (v :: l))]), []).
Proof.
  induction l as [|s l IH]; intros c m v T F E. cbn. rewrite <- E. destruct c; reflexivity.
  cbn [map items_to_frames]. rewrite (step_user c _ s) by (auto; destruct owned; reflexivity). cbn [it_key text_item new_item].
  rewrite E, extend_old by (auto; apply list_eqb_refl). erewrite IH; [|auto|exact F|reflexivity]. unfold set_txxx. cbn [c_tipl c_text c_txxx c_comm c_uslt c_track c_track_total c_disc c_disc_total].
  replace (joined 0 (v :: s :: l)) with (joined 0 ((v ++ [0] ++ s) :: l)); auto.
  destruct l as [|w l]; auto. change (joined 0 (v :: s :: w :: l)) with (v ++ [0] ++ s ++ [0] ++ joined 0 (w :: l)).
  change (joined 0 ((v ++ [0] ++ s) :: w :: l)) with ((v ++ [0] ++ s) ++ [0] ++ joined 0 (w :: l)). now rewrite <- !app_assoc.
Qed.
Lemma run_user : forall k l c, target_of k = ToUser -> l <> [] -> Forall (fun e => list_eqb (mapped_key k) (fst e) = false) (c_txxx c) ->
  run c (map (text_item k) l) = (set_txxx c (c_txxx c ++ [(mapped_key k, joined 0 l)]), []).
Proof.
  intros k [|s l] c T N F; [congruence|]. cbn [map items_to_frames]. rewrite (step_user c _ s) by (auto; destruct owned; reflexivity).
  cbn [it_key text_item new_item]. rewrite extend_new by auto. erewrite run_user_more; [|auto|exact F|reflexivity]. destruct c. reflexivity.
Qed.
Lemma lang_refl : forall a, lang_desc_eqb a a = true.
Proof. intros [a b]. unfold lang_desc_eqb. cbn [fst snd]. now rewrite !list_eqb_refl. Qed.
(** Comments without a description, of any number of values. *)
Lemma run_comm_more : forall lang l c m v, Forall (fun e => lang_desc_eqb (lang, []) (fst e) = false) m ->
  c_comm c = m ++ [((lang, []), v)] ->
  run c (map (fun s => mkItem lang [] KComment (VText s)) l) = (set_comm c (m ++ [((lang, []), joined 0 (v :: l))]), []).
Proof.
  induction l as [|s l IH]; intros c m v F E. cbn. rewrite <- E. destruct c; reflexivity.
  cbn [map items_to_frames]. rewrite (step_comm c _ s) by (auto; destruct owned; reflexivity). cbn [it_lang it_desc].
  rewrite E, extend_old by (auto; apply lang_refl). erewrite IH; [|exact F|reflexivity]. unfold set_comm. cbn [c_tipl c_text c_txxx c_comm c_uslt c_track c_track_total c_disc c_disc_total].
  replace (joined 0 (v :: s :: l)) with (joined 0 ((v ++ [0] ++ s) :: l)); auto.
  destruct l as [|w l]; auto. change (joined 0 (v :: s :: w :: l)) with (v ++ [0] ++ s ++ [0] ++ joined 0 (w :: l)).
  change (joined 0 ((v ++ [0] ++ s) :: w :: l)) with ((v ++ [0] ++ s) ++ [0] ++ joined 0 (w :: l)). now rewrite <- !app_assoc.
Qed.
Lemma run_comm : forall lang d l c, l <> [] -> (d = [] \/ exists s, l = [s]) -> Forall (fun e => lang_desc_eqb (lang, d) (fst e) = false) (c_comm c) ->
  run c (lang_items KComment lang d l) = (set_comm c (c_comm c ++ [((lang, d), joined 0 l)]), []).
Proof.
  intros lang d [|s l] c N D F; [congruence|]. cbn [lang_items items_to_frames]. rewrite (step_comm c _ s) by (auto; destruct owned; reflexivity).
  cbn [it_lang it_desc]. rewrite extend_new by auto. destruct D as [-> | (s' & D)].
  - erewrite run_comm_more; [|exact F|reflexivity]. destruct c. reflexivity.
  - injection D. intros -> ->. reflexivity.
Qed.
Lemma run_uslt_more : forall lang l c m v, Forall (fun e => lang_desc_eqb (lang, []) (fst e) = false) m ->
  c_uslt c = m ++ [((lang, []), v)] ->
  run c (map (fun s => mkItem lang [] KUnsyncLyrics (VText s)) l) = (set_uslt c (m ++ [((lang, []), joined 0 (v :: l))]), []).
Proof.
  induction l as [|s l IH]; intros c m v F E. cbn. rewrite <- E. destruct c; reflexivity.
  cbn [map items_to_frames]. rewrite (step_uslt c _ s) by (auto; destruct owned; reflexivity). cbn [it_lang it_desc].
  rewrite E, extend_old by (auto; apply lang_refl). erewrite IH; [|exact F|reflexivity]. unfold set_uslt. cbn [c_tipl c_text c_txxx c_comm c_uslt c_track c_track_total c_disc c_disc_total].
  replace (joined 0 (v :: s :: l)) with (joined 0 ((v ++ [0] ++ s) :: l)); auto.
  destruct l as [|w l]; auto. change (joined 0 (v :: s :: w :: l)) with (v ++ [0] ++ s ++ [0] ++ joined 0 (w :: l)).
  change (joined 0 ((v ++ [0] ++ s) :: w :: l)) with ((v ++ [0] ++ s) ++ [0] ++ joined 0 (w :: l)). now rewrite <- !app_assoc.
Qed.
Lemma run_uslt : forall lang d l c, l <> [] -> (d = [] \/ exists s, l = [s]) -> Forall (fun e => lang_desc_eqb (lang, d) (fst e) = false) (c_uslt c) ->
  run c (lang_items KUnsyncLyrics lang d l) = (set_uslt c (c_uslt c ++ [((lang, d), joined 0 l)]), []).
Proof.
  intros lang d [|s l] c N D F; [congruence|]. cbn [lang_items items_to_frames]. rewrite (step_uslt c _ s) by (auto; destruct owned; reflexivity).
  cbn [it_lang it_desc]. rewrite extend_new by auto. destruct D as [-> | (s' & D)].
  - erewrite run_uslt_more; [|exact F|reflexivity]. destruct c. reflexivity.
  - injection D. intros -> ->. reflexivity.
Qed.
Lemma run_tipl : forall l c, Forall (fun p => In (fst p) ROLES) l ->
  run c (TagModel.filter_map (fun p => option_map (fun k => text_item k (snd p)) (tipl_key (fst p))) l) = (set_tipl c (c_tipl c ++ l), []).
Proof.
  induction l as [|[n s] l IH]; intros c F. cbn. rewrite app_nil_r. destruct c; reflexivity.
  apply Forall_cons_iff in F as [H F]. cbn [fst] in H.
  assert (X : exists k, tipl_key n = Some k /\ target_of k = ToOther /\ tipl_name k = Some n).
  { unfold ROLES in H. cbn [In] in H. repeat destruct H as [<- | H]; try contradiction; eexists; repeat split; reflexivity. }
  destruct X as (k & K & T & Nm). cbn [TagModel.filter_map fst snd]. rewrite K. cbn [option_map items_to_frames].
  rewrite (step_tipl c _ s n) by (auto; destruct owned; reflexivity). rewrite IH by auto. unfold set_tipl.
  cbn [c_tipl c_text c_txxx c_comm c_uslt c_track c_track_total c_disc c_disc_total]. now rewrite <- app_assoc.
Qed.
End Run.
