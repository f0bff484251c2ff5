(** A generic tag in APE, WavPack and Musepack files (C239). *)
From Verif Require Import BaseLemmas StrLemmas TextProof ItemKeyThm TagThm Id3v1Model Id3v1Thm Id3v2HeaderModel Id3v2HeaderThm FrameReadModel ApeModel ApeProof ApeProof2 ApeThm ApeThm2 ApeThm3 MpegModel MpegProof3 TailProof MusepackProof2 MusepackThm WavPackProof2 WavPackThm ApePropsProof ApePropsThm.
From Verif Require Import Base Str TagModel ApeModel.

(** The items that have a name of their own, and the pairs of numbers, which come last *)
Definition own_name (i : tag_item) : option tag_item :=
  match map_key Ape (it_key i) with Some _ => if existsb (ik_eqb (it_key i)) [KTrackNumber; KTrackTotal; KDiscNumber; KDiscTotal] then None else Some (new_item (it_key i) (it_value i)) | None => None end.
Definition pair_items (n t : option str) (kn kt : item_key) : list tag_item :=
  match n, t with
  | Some n, Some t => [new_item kn (VText n); new_item kt (VText t)]
  | Some n, None => [new_item kn (VText n)]
  | None, Some t => [new_item kn (VText ($"0")); new_item kt (VText t)]
  | None, None => []
  end.
Definition in_ape {C} (t : tag C) : list tag_item :=
  filter_map own_name (t_items t) ++
  pair_items (get_string t KTrackNumber) (get_string t KTrackTotal) KTrackNumber KTrackTotal ++ pair_items (get_string t KDiscNumber) (get_string t KDiscTotal) KDiscNumber KDiscTotal.
(** One item of each key, whose name is not shared with another key; texts do not have null characters. *)
Definition ape_value (v : item_value) : Prop := match v with VText s => str_ok s /\ ~ In 0 s | VLocator s => str_ok s /\ last s 1 <> 0 | VBinary b => bytes_ok b end.
Definition half_fits (o : option str) : Prop := match o with Some s => str_ok s /\ ~ In 0 s /\ ~ In 47 s | None => True end.
Definition ape_fits {C} (t : tag C) : Prop :=
  Forall (fun i => ape_value (it_value i) /\ exists s, plain (it_key i) s) (filter_map own_name (t_items t)) /\ NoDup (map it_key (filter_map own_name (t_items t))) /\
  Forall half_fits [get_string t KTrackNumber; get_string t KTrackTotal; get_string t KDiscNumber; get_string t KDiscTotal].

Lemma nodup_app : forall A (a b : list A), NoDup a -> NoDup b -> (forall x, In x a -> ~ In x b) -> NoDup (a ++ b).
Proof.
  induction a as [|x a IH]; intros b A1 B D; auto. apply NoDup_cons_iff in A1 as [N A1]. cbn [app]. constructor. { intros I. apply in_app_or in I as [I|I]; auto. apply (D x); auto. now left. } apply IH; auto. intros y Y. apply D. now right.
Qed.
Lemma no_null_last : forall s, ~ In 0 s -> last s 1 <> 0.
Proof. intros s N. destruct s as [|c s] using rev_ind; [discriminate|]. rewrite last_last. intros ->. apply N. apply in_or_app. right. now left. Qed.
Definition ref_item (j : tag_item) : option ape_item := match map_key Ape (it_key j) with Some key => Some (mkApe false key (it_value j)) | None => None end.
Lemma own_refs : forall l, filter_map ref_item (filter (fun i => negb (is_pair_key (it_key i))) l) = filter_map ref_item (filter_map own_name l).
Proof.
  induction l as [|i l IH]; auto. cbn [filter filter_map]. destruct (map_key Ape (it_key i)) as [s|] eqn:M.
  - assert (E : own_name i = if is_pair_key (it_key i) then None else Some (new_item (it_key i) (it_value i))) by (unfold own_name; now rewrite M). rewrite E. destruct (is_pair_key (it_key i)); cbn [negb filter_map]; auto.
    change (ref_item (new_item (it_key i) (it_value i))) with (ref_item i). now rewrite IH.
  - assert (E : own_name i = None) by (unfold own_name; now rewrite M). assert (E2 : ref_item i = None) by (unfold ref_item; now rewrite M). rewrite E. destruct (negb (is_pair_key (it_key i))); cbn [filter_map]; [rewrite E2|]; exact IH.
Qed.
Definition pair_ref (name : str) (n t : option str) : list ape_item := opt_list (option_map (ape_text name) (format_number_pair n t)).
Lemma split_pair_ok : forall n t a b name, half_fits n -> half_fits t -> split_ape_item (mkApe false name (VText [])) <> None -> 
  (forall v, split_ape_item (ape_text name v) = Some (split_pair v a b)) -> flat_map (fun i => match split_ape_item i with Some l => l | None => [] end) (pair_ref name n t) = pair_items n t a b.
Proof.
  assert (SO : forall (n t : str), ~ In 47 n -> split_once 47 (n ++ [47] ++ t) = Some (n, t)).
  { induction n as [|c n IH]; intros t NI; cbn [split_once app]; [reflexivity|]. cbn [split_once]. destruct (N.eqb_spec c 47) as [->|_]; [destruct NI; now left|]. cbn [app] in IH. rewrite IH; auto. intro; apply NI; now right. }
  assert (SN : forall (n : str), ~ In 47 n -> split_once 47 n = None).
  { induction n as [|c n IH]; intros NI; auto. cbn [split_once]. destruct (N.eqb_spec c 47) as [->|_]; [destruct NI; now left|]. rewrite IH; auto. intro; apply NI; now right. }
  intros n t a b name Hn Ht _ S. unfold pair_ref, pair_items. destruct n as [n|], t as [t|]; cbn [format_number_pair option_map opt_list flat_map]; auto; rewrite S, app_nil_r; unfold split_pair.
  - rewrite SO; tauto || (cbn in Hn; tauto).
  - rewrite SN; auto. cbn in Hn. tauto.
  - change ($"0/" ++ t) with ($"0" ++ [47] ++ t). rewrite SO; auto. intros [X|[]]. discriminate.
Qed.
Lemma split_flat : forall l, (forall i, In i l -> split_ape_item i <> None) -> snd (split_ape_items l) = flat_map (fun i => match split_ape_item i with Some x => x | None => [] end) l.
Proof.
  induction l as [|i l IH]; intros A; auto. cbn [split_ape_items flat_map]. specialize (IH (fun j J => A j (or_intror J))). destruct (split_ape_items l) as [r ts]. cbn [snd] in IH. pose proof (A i (or_introl eq_refl)).
  destruct (split_ape_item i); [|contradiction]. cbn [snd]. now rewrite IH.
Qed.
Lemma track_split : forall v, split_ape_item (ape_text TRACK v) = Some (split_pair v KTrackNumber KTrackTotal).
Proof. intros. unfold split_ape_item, ape_text. cbn [ai_key ai_value]. assert (E : from_key Ape TRACK = Some KTrackTotal) by (vm_compute; reflexivity). now rewrite E. Qed.
Lemma disc_split : forall v, split_ape_item (ape_text DISC v) = Some (split_pair v KDiscNumber KDiscTotal).
Proof. intros. unfold split_ape_item, ape_text. cbn [ai_key ai_value]. assert (E : from_key Ape DISC = Some KDiscTotal) by (vm_compute; reflexivity). now rewrite E. Qed.
Lemma ref_split : forall C (t : tag C), ape_ref_of_tag t = filter_map ref_item (filter_map own_name (t_items t)) ++ pair_ref TRACK (get_string t KTrackNumber) (get_string t KTrackTotal) ++ pair_ref DISC (get_string t KDiscNumber) (get_string t KDiscTotal).
Proof. intros. unfold ape_ref_of_tag. rewrite <- own_refs. reflexivity. Qed.
Lemma half_ok : forall n t v, half_fits n -> half_fits t -> format_number_pair n t = Some v -> str_ok v /\ last v 1 <> 0.
Proof.
  intros n t v A B E. assert (X : str_ok v /\ ~ In 0 v). 2:{ split; [tauto|]. apply no_null_last. tauto. }
  assert (S0 : forall c, c = 47 \/ c = 48 -> scalar c) by (intros c [-> | ->]; reflexivity).
  destruct n as [n|], t as [t|]; cbn [format_number_pair half_fits] in *; try discriminate; injection E as <-.
  - split; [apply Forall_app; split; [tauto|]; constructor; [auto|tauto]|]. rewrite in_app_iff. intros [H|[H|H]]; try tauto. discriminate.
  - tauto.
  - split; [constructor; [auto|]; constructor; [auto|tauto]|]. intros [H|[H|H]]; try discriminate. tauto.
Qed.
Lemma in_ref : forall C (t : tag C) i, ape_fits t -> In i (ape_ref_of_tag t) ->
  (exists j s, In j (filter_map own_name (t_items t)) /\ plain (it_key j) s /\ ape_value (it_value j) /\ i = mkApe false s (it_value j)) \/
  (exists v, str_ok v /\ last v 1 <> 0 /\ (i = ape_text TRACK v \/ i = ape_text DISC v)).
Proof.
  intros C t i (F1 & F2 & F3) I. rewrite ref_split in I. repeat (apply Forall_cons_iff in F3 as [? F3]). apply in_app_or in I as [I|I].
  - left. apply in_filter_map in I as (j & J & E). unfold ref_item in E. pose proof (proj1 (Forall_forall _ _) F1 j J) as (V & s & P). cbv beta in V. pose proof P as (M & _). rewrite M in E. injection E as <-. eauto 8.
  - right. unfold pair_ref in I. apply in_app_or in I as [I|I]; destruct (format_number_pair _ _) as [v|] eqn:E; cbn [option_map opt_list In] in I; try contradiction; destruct I as [<- |[]]; exists v; apply half_ok in E; auto; destruct E; auto.
Qed.
Lemma plain_split : forall j s, plain (it_key j) s -> ape_value (it_value j) -> it_key j = it_key j -> split_ape_item (mkApe false s (it_value j)) = Some [new_item (it_key j) (it_value j)].
Proof.
  intros j s (M & F & NS) V _. destruct (it_value j) as [v|v|v] eqn:E.
  - rewrite (split_item_text (mkApe false s (VText v)) (it_key j) v); auto. cbn [ape_value] in V. rewrite split_all_no by tauto. reflexivity.
  - now apply (split_item_other (mkApe false s (VLocator v)) (it_key j)).
  - now apply (split_item_other (mkApe false s (VBinary v)) (it_key j)).
Qed.
Lemma own_new : forall l, Forall (fun j => j = new_item (it_key j) (it_value j)) (filter_map own_name l).
Proof. intros l. apply Forall_forall. intros j J. apply in_filter_map in J as (i & _ & E). unfold own_name in E. destruct (map_key Ape (it_key i)); [|discriminate]. destruct (existsb _ _); [discriminate|]. now injection E as <-. Qed.
Lemma ref_facts : forall C (t : tag C), ape_fits t ->
  Forall item_ok (ape_ref_of_tag t) /\ NoDup (fold_keys (ape_ref_of_tag t)) /\ forall ro, tag_of_ape (mkApeTag ro (ape_ref_of_tag t)) = mkTag Ape [] (in_ape t) None :> tag C.
Proof.
  intros C t F. split; [|split].
  - apply Forall_forall. intros i I. destruct (in_ref C t i F I) as [(j & s & J & P & V & ->)|(v & S & L & [-> | ->])].
    + split; [eapply table_key_ok; apply P|]. cbn [ai_value]. destruct (it_value j); cbn [ape_value value_ok] in *; auto. split; [tauto|]. apply no_null_last; tauto.
    + split; [eexists; vm_compute; reflexivity|]. cbn. auto.
    + split; [eexists; vm_compute; reflexivity|]. cbn. auto.
  - rewrite ref_split. unfold fold_keys. rewrite !map_app. destruct F as (F1 & F2 & _).
    assert (OWN : forall i, In i (filter_map ref_item (filter_map own_name (t_items t))) -> exists k s, plain k s /\ ai_key i = s).
    { intros i I. apply in_filter_map in I as (j & J & E). unfold ref_item in E. pose proof (proj1 (Forall_forall _ _) F1 j J) as (_ & s & P). pose proof P as (M & _). rewrite M in E. injection E as <-. eauto. }
    apply nodup_app.
    + revert F1 F2. generalize (filter_map own_name (t_items t)). clear. induction l as [|j l IH]; intros F1 F2; [constructor|]. apply Forall_cons_iff in F1 as [(_ & s & P) F1]. cbn [map] in F2. apply NoDup_cons_iff in F2 as [N F2]. cbn [filter_map]. unfold ref_item at 1. pose proof P as (M & FK & _). rewrite M. cbn [map ai_key]. constructor; [|auto].
      intros I. apply in_map_iff in I as (i & E & I). apply in_filter_map in I as (j' & J & E'). unfold ref_item in E'. pose proof (proj1 (Forall_forall _ _) F1 j' J) as (_ & s' & (M' & FK' & _)). rewrite M' in E'. injection E' as <-. cbn [ai_key] in E. apply N. apply in_map_iff. exists j'. split; auto. apply from_key_lower in E. congruence.
    + unfold pair_ref. destruct (format_number_pair _ _), (format_number_pair _ _); cbn [option_map opt_list map app]; repeat constructor; cbn [In]; try tauto. intros [X|[]]. vm_compute in X. discriminate.
    + intros x I J. apply in_map_iff in I as (i & <- & I). apply OWN in I as (k & s & (M & FK & NS) & E). rewrite E in J. assert (X : lower s = lower TRACK \/ lower s = lower DISC).
      { unfold pair_ref in J. apply in_app_or in J as [J|J]; destruct (format_number_pair _ _); cbn [option_map opt_list map In] in J; try contradiction; destruct J as [J|[]]; cbn [ai_key ape_text] in J; auto. }
      assert (T1 : from_key Ape TRACK = Some KTrackTotal) by (vm_compute; reflexivity). assert (T2 : from_key Ape DISC = Some KDiscTotal) by (vm_compute; reflexivity).
      destruct X as [X|X]; apply from_key_lower in X; apply NS; unfold special; cbn [In]; [rewrite T1 in X|rewrite T2 in X]; rewrite FK in X; injection X as ->; tauto.
  - intros ro. unfold tag_of_ape, ape_split. cbn [at_items at_ro].
    assert (A : snd (split_ape_items (ape_ref_of_tag t)) = in_ape t). 2:{ destruct (split_ape_items (ape_ref_of_tag t)) as [r ts]. cbn [snd] in A |- *. now rewrite A. }
    rewrite split_flat. 2:{ intros i I. destruct (in_ref C t i F I) as [(j & s & J & P & V & ->)|(v & S & L & [-> | ->])]; [rewrite (plain_split j s) by auto|rewrite track_split|rewrite disc_split]; discriminate. }
    rewrite ref_split, !flat_map_app. destruct F as (F1 & F2 & F3). repeat (apply Forall_cons_iff in F3 as [? F3]).
    rewrite (split_pair_ok _ _ KTrackNumber KTrackTotal TRACK) by (auto; exact track_split || (vm_compute; discriminate)). rewrite (split_pair_ok _ _ KDiscNumber KDiscTotal DISC) by (auto; exact disc_split || (vm_compute; discriminate)).
    unfold in_ape. f_equal. pose proof (own_new (t_items t)) as ON. revert F1 ON. generalize (filter_map own_name (t_items t)). clear. induction l as [|j l IH]; intros F1 ON; auto. apply Forall_cons_iff in F1 as [(V & s & P) F1]. apply Forall_cons_iff in ON as [E ON].
    cbn [filter_map]. unfold ref_item at 1. pose proof P as (M & _). rewrite M. cbn [flat_map]. rewrite (plain_split j s) by auto. rewrite IH by auto. now rewrite <- E.
Qed.
(** ** Files *)
Lemma ape_unique : forall o u ape t, mo_tags o = true -> Forall item_ok (at_items u) -> NoDup (fold_keys (at_items u)) -> at_items u <> [] -> ape_dump u = Ok ape ->
  ape_of o ape t -> t = Some (mkApeTag false (filter (shown (fo_cover (mo_frames o))) (at_items u))).
Proof.
  intros o u ape t TG F ND NE D A. destruct t as [t|]; cbn [ape_of] in A.
  - destruct A as (w & (F' & ND') & D' & NE' & _ & ->). destruct (read_back u ape [] [] (fo_cover (mo_frames o)) F ND NE D) as [R _]. destruct (read_back w ape [] [] (fo_cover (mo_frames o)) F' ND' NE' D') as [R' _].
    cbv zeta in R, R'. rewrite R in R'. injection R' as -> _. reflexivity.
  - exfalso. destruct A as [-> |A]; [|congruence]. destruct (dump_inv u [] D NE) as (f1 & f2 & B). cbv zeta in B. destruct B as (B & _). apply (f_equal (@lenN N)) in B. rewrite !lenN_app, !frame_len in B. change (lenN (@nil N)) with 0 in B. lia.
Qed.
(** What is there before and after saving: the audio after [pre], an APE tag, an ID3v1 tag *)
Record ape_saved (C : Type) (inflate : bytes -> option bytes) (o : mopts) (pre body old new v1 : bytes) (v2 : option id3v2_tag) (v1t : option id3v1) (t : tag C) : Prop := {
  as_tags : mo_tags o = true;
  as_front : front inflate o pre v2;
  as_old : old_tag (pre ++ body) old /\ file_end (pre ++ body ++ old ++ v1) v1;
  as_long : 32 <= lenN (body ++ old) /\ 32 <= lenN body;
  as_start : takeN 3 (body ++ old ++ v1) <> $"ID3" /\ takeN 3 (body ++ new ++ v1) <> $"ID3" /\ takeN 8 (dropN 8 (body ++ old ++ v1)) <> $"APETAGEX";
  as_v1 : v1_of o v1 v1t;
  as_fits : ape_fits t /\ ape_ref_of_tag t <> [] /\ fo_cover (mo_frames o) = true;
  as_new : create_ape_tag false (ape_ref_of_tag t) = Ok new /\ lenN new < 2 ^ 32 /\ file_end (pre ++ body ++ new ++ v1) v1 }.
Lemma ape_write_saved : forall C inflate o pre body old new v1 v2 v1t (t : tag C) cover, ape_saved C inflate o pre body old new v1 v2 v1t t ->
  exists log, ape_write (pre ++ body ++ old ++ v1) cover true false (ape_ref_of_tag t) = Ok log /\ apply_log (pre ++ body ++ old ++ v1) log = pre ++ body ++ new ++ v1.
Proof.
  intros C inflate o pre body old new v1 v2 v1t t cover [TG FR (OT & FE) (L1 & L2) (S1 & _ & S3) V1 _ (NW & _)].
  set (o' := mkMO (mo_frames o) false (mo_props o) (mo_junk o)).
  assert (FR' : front inflate o' pre None). { destruct FR as [[-> _]|(g & foot & E & OK & L & _)]; [left; auto|right; exists g, foot; auto]. }
  destruct (front_whole inflate o' pre None (body ++ old ++ v1) FR') as (h & c & FI & _); auto. { rewrite !lenN_app in *. lia. }
  pose proof (C69_save_partial (pre ++ body) old v1 false (ape_ref_of_tag t) new cover h c (lenN pre)) as W. cbv zeta in W. rewrite <- !app_assoc in W. rewrite <- app_assoc in FE || idtac.
  apply W; auto.
  - rewrite !lenN_app in *. lia.
  - rewrite !lenN_app in *. lia.
  - rewrite <- dropN_dropN. rewrite dropN_app by reflexivity. exact S3.
Qed.
Lemma saved_tail : forall C inflate o pre body old new v1 v2 v1t (t : tag C), ape_saved C inflate o pre body old new v1 v2 v1t t ->
  old_tag (pre ++ body) new /\ forall r, ape_of o new r -> exists a, r = Some a /\ tag_of_ape a = mkTag Ape [] (in_ape t) None :> tag C.
Proof.
  intros C inflate o pre body old new v1 v2 v1t t [TG FR _ _ _ _ (FT & NE & CV) (NW & L & _)]. destruct (ref_facts C t FT) as (F & ND & G). split.
  - right. split; auto. exists (mkApeTag false (ape_ref_of_tag t)). auto.
  - intros r A. eexists. split; [apply (ape_unique o (mkApeTag false (ape_ref_of_tag t)) new r TG F ND NE NW A)|]. cbn [at_items]. rewrite CV.
    assert (E : filter (shown true) (ape_ref_of_tag t) = ape_ref_of_tag t). { clear. induction (ape_ref_of_tag t) as [|i l IH]; auto. cbn [filter]. now rewrite shown_all, IH. } rewrite E. apply G.
Qed.
(** Saving, then reading: the tag that was saved is there, the others are as before. *)
Theorem C239_ape : forall C inflate o pre m old new v1 v2 v1t (t : tag C) cover, let body := $"MAC " ++ m in ape_saved C inflate o pre body old new v1 v2 v1t t ->
  exists log, ape_write (pre ++ body ++ old ++ v1) cover true false (ape_ref_of_tag t) = Ok log /\
    match mac_file_read inflate o (apply_log (pre ++ body ++ old ++ v1) log) with
    | Ok f => mc_v2 f = v2 /\ mc_v1 f = v1t /\ exists a, mc_ape f = Some a /\ tag_of_ape a = mkTag Ape [] (in_ape t) None :> tag C
    | Err _ => mo_props o = true
    | Panic => False
    end.
Proof.
  intros C inflate o pre m old new v1 v2 v1t t cover body S. destruct (ape_write_saved _ _ _ _ _ _ _ _ _ _ _ cover S) as (log & W & E). exists log. split; [exact W|]. rewrite E.
  destruct (saved_tail _ _ _ _ _ _ _ _ _ _ _ S) as (OT & G). destruct S as [TG FR _ (L1 & L2) _ V1 _ (_ & _ & FE)].
  destruct (mac_shape inflate o pre m new v1 v2 v1t) as (a & AT & R). { repeat (split; [assumption|]). assumption. } { rewrite lenN_app. fold body. lia. }
  fold body in R. rewrite R. destruct (mo_props o); cbn [bind]; [|cbn [mc_v2 mc_v1 mc_ape]; auto]. match goal with |- context [mac_read ?a ?b ?c ?d] => pose proof (C228_total a b c d) as NP; destruct (mac_read a b c d); cbn [bind]; auto end.
Qed.
Theorem C239_wavpack : forall C inflate o body old new v1 v1t (t : tag C) cover, ape_saved C inflate o [] body old new v1 None v1t t ->
  exists log, ape_write (body ++ old ++ v1) cover true false (ape_ref_of_tag t) = Ok log /\
    match wv_read o (apply_log (body ++ old ++ v1) log) with
    | Ok f => wf_id3v1 f = v1t /\ exists a, wf_ape f = Some a /\ tag_of_ape a = mkTag Ape [] (in_ape t) None :> tag C
    | Err _ => mo_props o = true
    | Panic => False
    end.
Proof.
  intros C inflate o body old new v1 v1t t cover S. destruct (ape_write_saved _ _ _ _ _ _ _ _ _ _ _ cover S) as (log & W & E). exists log. split; [exact W|]. cbn [app] in E. rewrite E.
  destruct (saved_tail _ _ _ _ _ _ _ _ _ _ _ S) as (OT & G). destruct S as [TG FR _ (L1 & L2) _ V1 _ (_ & _ & FE)]. cbn [app] in *.
  pose proof (C185_tags o body new v1 v1t) as R. lapply R; [clear R; intros R|repeat (split; [assumption|]); assumption]. lapply R; [clear R; intros R|rewrite lenN_app; lia].
  destruct (wv_read o (body ++ new ++ v1)) as [f|e|]; auto. destruct R as (-> & A). auto.
Qed.
Theorem C239_musepack : forall C inflate log_peak o pre body old new v1 v2 v1t (t : tag C) cover, ape_saved C inflate o pre body old new v1 v2 v1t t ->
  exists log, ape_write (pre ++ body ++ old ++ v1) cover true false (ape_ref_of_tag t) = Ok log /\
    match mpc_read inflate log_peak o (apply_log (pre ++ body ++ old ++ v1) log) with
    | Ok f => mc_id3v2 f = v2 /\ mc_id3v1 f = v1t /\ exists a, MusepackModel.mc_ape f = Some a /\ tag_of_ape a = mkTag Ape [] (in_ape t) None :> tag C
    | _ => mo_props o = true
    end.
Proof.
  intros C inflate log_peak o pre body old new v1 v2 v1t t cover S. destruct (ape_write_saved _ _ _ _ _ _ _ _ _ _ _ cover S) as (log & W & E). exists log. split; [exact W|]. rewrite E.
  destruct (saved_tail _ _ _ _ _ _ _ _ _ _ _ S) as (OT & G). destruct S as [TG FR _ (L1 & L2) (_ & S2 & _) V1 _ (_ & _ & FE)].
  pose proof (C190_tags inflate log_peak o pre body new v1 v2 v1t) as R. lapply R; [clear R; intros R|repeat (split; [assumption|]); assumption]. lapply R; [clear R; intros R|rewrite lenN_app; lia]. specialize (R S2 (or_introl TG)).
  destruct (mpc_read inflate log_peak o (pre ++ body ++ new ++ v1)) as [f|e|]; auto. destruct R as (-> & -> & A). auto.
Qed.
(** ** Examples *)
Definition ex_some : tag unit := mkTag Ape [] [new_item KTrackTitle (VText ($"T")); new_item KTrackTotal (VText ($"9")); new_item KTrackArtist (VText ($"A")); new_item KComment (VLocator ($"u")); new_item KDiscNumber (VText ($"1"))] None.
Definition ex_mo : mopts := mkMO (mkFO Relaxed true false) true false 1024.
Definition again (data : bytes) (t : tag unit) : option (option id3v1 * option (tag unit)) :=
  match ape_write data true true false (ape_ref_of_tag t) with
  | Ok log => match mac_file_read ex_none ex_mo (apply_log data log) with Ok f => Some (mc_v1 f, option_map tag_of_ape (mc_ape f)) | _ => None end
  | _ => None end.
Example C239_ex : ape_saved unit ex_none ex_mo [] audio_ex (dumped (ApeThm2.one ($"Title") ($"Old"))) (dumped (ape_ref_of_tag ex_some)) [] None None ex_some /\
  in_ape ex_some = [new_item KTrackTitle (VText ($"T")); new_item KTrackArtist (VText ($"A")); new_item KComment (VLocator ($"u")); new_item KTrackNumber (VText ($"0")); new_item KTrackTotal (VText ($"9")); new_item KDiscNumber (VText ($"1"))] /\
  again (audio_ex ++ dumped (ApeThm2.one ($"Title") ($"Old"))) ex_some = Some (None, Some (mkTag Ape [] (in_ape ex_some) None)).
Proof.
  assert (SO : forall x, forallb (fun c => c <? 128) x = true -> str_ok x). { intros x X. apply Forall_forall. intros c I. rewrite forallb_forall in X. apply X in I. apply scalar_bound. lia. }
  split; [|split; vm_compute; reflexivity]. constructor.
  - reflexivity.
  - left. auto.
  - split; [right|left; split; [reflexivity|intros _; vm_compute; discriminate]]. split; [vm_compute; reflexivity|]. exists (mkApeTag false (ApeThm2.one ($"Title") ($"Old"))). split; [|split; [repeat constructor; intros []|split; [discriminate|vm_compute; reflexivity]]].
    constructor; [|constructor]. split; [eexists; vm_compute; reflexivity|]. cbn. split; [apply SO; reflexivity|discriminate].
  - split; vm_compute; discriminate.
  - split; [|split]; vm_compute; discriminate.
  - left. reflexivity.
  - split; [|split; [vm_compute; discriminate|reflexivity]]. split; [|split].
    + assert (E : filter_map own_name (t_items ex_some) = [new_item KTrackTitle (VText ($"T")); new_item KTrackArtist (VText ($"A")); new_item KComment (VLocator ($"u"))]) by (vm_compute; reflexivity). rewrite E.
      assert (PL : forall k s, map_key Ape k = Some s -> from_key Ape s = Some k -> ~ In k special -> exists s, plain k s) by (intros k s A B D; exists s; split; [|split]; auto).
      repeat apply Forall_cons; try apply Forall_nil; (split; [cbn; split; [apply SO; reflexivity|]; try discriminate; intros [X|[]]; discriminate|]); (eapply PL; [vm_compute; reflexivity|vm_compute; reflexivity|unfold special; cbn [In it_key new_item]; intuition discriminate]).
    + assert (E : map it_key (filter_map own_name (t_items ex_some)) = [KTrackTitle; KTrackArtist; KComment]) by (vm_compute; reflexivity). rewrite E. repeat constructor; cbn [In]; intuition discriminate.
    + assert (HF : forall x, forallb (fun c => (48 <=? c) && (c <? 58)) x = true -> str_ok x /\ ~ In 0 x /\ ~ In 47 x).
      { intros x X. rewrite forallb_forall in X. split; [apply SO; apply forallb_forall; intros c I; apply X in I; lia|]. split; intros I; apply X in I; discriminate. }
      repeat apply Forall_cons; try apply Forall_nil; vm_compute (get_string _ _); cbn [half_fits]; auto.
  - split; [vm_compute; reflexivity|]. split; [vm_compute; reflexivity|]. left. split; [reflexivity|]. intros _. vm_compute. discriminate.
Qed.
(** Finding: if "TAG" is 128 bytes before the end of the new tag, that is taken for an ID3v1 tag, and the tag that was just saved is not found. *)
Definition unlucky : tag unit := mkTag Ape [] [new_item KTrackTitle (VText ($"TAG" ++ repeat 97 (N.to_nat 93)))] None.
Definition v1_of_file (r : option (option id3v1 * option (tag unit))) : option bool := option_map (fun x => match fst x with Some _ => true | None => false end) r.
Theorem C239_taken_refuted : ~ (forall t : tag unit, ape_fits t -> ape_ref_of_tag t <> [] -> forall r, again audio_ex t = Some r -> r = (None, Some (mkTag Ape [] (in_ape t) None))).
Proof.
  intro H. specialize (H unlucky). lapply H; [clear H; intro H|].
  - specialize (H ltac:(vm_compute; discriminate)). assert (E : exists v, again audio_ex unlucky = Some (v, None)) by (eexists; vm_compute; reflexivity). destruct E as (v & E). specialize (H _ E). generalize dependent (mkTag Ape [] (in_ape unlucky) None : tag unit). clear. intros x H. discriminate.
  - assert (E : filter_map own_name (t_items unlucky) = [new_item KTrackTitle (VText ($"TAG" ++ repeat 97 (N.to_nat 93)))]) by (vm_compute; reflexivity).
    assert (N : Forall (fun c => c < 128 /\ c <> 0) ($"TAG" ++ repeat 97 (N.to_nat 93))). { assert (X : forallb (fun c => (c <? 128) && negb (c =? 0)) ($"TAG" ++ repeat 97 (N.to_nat 93)) = true) by (vm_compute; reflexivity). rewrite forallb_forall in X. apply Forall_forall. intros c I. apply X in I. lia. }
    unfold ape_fits. rewrite E. split; [|split].
    + constructor; [|constructor]. split. { split; [eapply Forall_impl; [|exact N]; intros c X; apply scalar_bound; cbv beta in X; lia|]. intros I. pose proof (proj1 (Forall_forall _ _) N 0 I) as X. cbv beta in X. lia. }
      cbn [it_key new_item]. assert (P : exists s, map_key Ape KTrackTitle = Some s /\ from_key Ape s = Some KTrackTitle) by (eexists; split; vm_compute; reflexivity). destruct P as (s & P1 & P2). exists s. split; [exact P1|]. split; [exact P2|]. unfold special. cbn [In]. intuition discriminate.
    + cbn. repeat constructor. intros [].
    + repeat constructor.
Qed.
(** A total without number comes back with the number 0; of several items with one key only the last comes back; pictures are not written (C74). *)
Theorem C239_total_refuted : ~ (forall (t : tag unit) r, ape_fits t -> ape_ref_of_tag t <> [] -> again audio_ex t = Some (None, Some r) -> get_string r KTrackNumber = get_string t KTrackNumber).
Proof.
  intro H. specialize (H (mkTag Ape [] [new_item KTrackTotal (VText ($"9"))] None) (mkTag Ape [] [new_item KTrackNumber (VText ($"0")); new_item KTrackTotal (VText ($"9"))] None)).
  lapply H; [clear H; intro H; specialize (H ltac:(vm_compute; discriminate) ltac:(vm_compute; reflexivity)); vm_compute in H; discriminate|].
  assert (E : filter_map own_name [new_item KTrackTotal (VText ($"9"))] = []) by (vm_compute; reflexivity). unfold ape_fits. cbn [t_items]. rewrite E. split; [constructor|]. split; [constructor|].
  assert (X : str_ok ($"9") /\ ~ In 0 ($"9") /\ ~ In 47 ($"9")) by (split; [repeat constructor|split; intros [X|[]]; discriminate]). repeat apply Forall_cons; try apply Forall_nil; vm_compute (get_string _ _); cbn [half_fits]; auto.
Qed.
Theorem C239_several_refuted : ~ (forall (t : tag unit) r, again audio_ex t = Some (None, Some r) -> get_strings r KTrackArtist = get_strings t KTrackArtist).
Proof.
  intro H. specialize (H (mkTag Ape [] [new_item KTrackArtist (VText ($"A")); new_item KTrackArtist (VText ($"B"))] None) (mkTag Ape [] [new_item KTrackArtist (VText ($"B"))] None) ltac:(vm_compute; reflexivity)). vm_compute in H. discriminate.
Qed.
Print Assumptions C239_ape.
Print Assumptions C239_wavpack.
Print Assumptions C239_musepack.
Print Assumptions C239_taken_refuted.
Print Assumptions C239_total_refuted.
Print Assumptions C239_several_refuted.
