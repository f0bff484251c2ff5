(** C251 for WAV files that have an INFO list. *)
From Verif Require Import BaseLemmas StrLemmas.
From Verif Require Import IffModel IffSpec IffProof IffProof2 IffThm2 ChunkTagModel FrameModel FrameWriteModel GenericChunkThm.
From Verif Require IffThm IffProof3 IffProof4.
From Verif Require Import FrameThm GenericId3Thm StableThm CommuteThm.

Lemma info_no_tag : forall t, Forall no_tag (info_chunks t). Proof. intros [|i t]; cbn [info_chunks]; repeat constructor. Qed.
(** The list is replaced (or removed, if the new one is empty) where it is. *)
Theorem C251_wav : forall m m' upper w f frames t a c b junk, Forall chunk_ok (a ++ c :: b) -> Forall IffProof.list_ok (a ++ [c]) -> Forall (fun c => is_info c = false) a -> is_info c = true -> N.even (lenN (snd c)) = true -> riff_ok t ->
  Forall no_tag (a ++ c :: b) -> 12 + lenN (body false (a ++ info_chunks t ++ b)) < 2 ^ 32 ->
  (forall tag, create_tag w (without_footer f) frames = Ok tag -> tag <> [] /\ lenN tag < 2 ^ 32 /\
    12 + lenN (body false (a ++ c :: b ++ [(IffProof4.id3_name upper, tag)])) < 2 ^ 32 /\ 12 + lenN (body false (a ++ info_chunks t ++ b ++ [(IffProof4.id3_name upper, tag)])) < 2 ^ 32) ->
  commute (fun d => write_riff_info m d t) (save_id3_chunk false m' upper w f frames) (riff_file (a ++ c :: b) ++ junk).
Proof.
  intros m m' upper w f frames t a c b junk OK LO NI IC EV TO NT L0 T l1 l2 H1 H2. unfold save_id3_chunk in *.
  destruct (create_tag w (without_footer f) frames) as [tag| |]; try discriminate H2. destruct (T tag eq_refl) as (NE & LT & L1 & L2). set (id3 := (IffProof4.id3_name upper, tag)) in *.
  assert (SZ : lenN (body false (a ++ c :: b)) <= lenN (body false (a ++ c :: b ++ [id3]))).
  { unfold body. rewrite !flat_map_app. cbn [flat_map]. rewrite !flat_map_app. cbn [flat_map]. rewrite ?lenN_app. lia. }
  assert (IM : id_ok ($"RIFF")) by (apply id_ok_valid; split; reflexivity).
  assert (CO : chunk_ok id3) by (split; [apply IffProof4.id3_name_ok|exact LT]).
  assert (ADD : forall cs, Forall chunk_ok cs -> Forall no_tag cs -> 12 + lenN (body false (cs ++ [id3])) < 2 ^ 32 -> saves false m' upper (match w_padding w with Some _ => true | None => false end) (riff_file cs ++ junk) tag (riff_file (cs ++ [id3]) ++ junk)).
  { intros cs O N X. exact (C106_added false upper (match w_padding w with Some _ => true | None => false end) m' ($"RIFF") ($"WAVE") tag IM eq_refl NE LT cs junk O N X). }
  destruct (IffThm.C105_list_replaced m a c b junk t OK LO NI IC TO EV ltac:(lia) ltac:(lia)) as (o1 & W1 & A1). rewrite H1 in W1. injection W1 as <-. rewrite A1.
  destruct (ADD _ OK NT) as (o2 & W2 & A2). { rewrite <- app_assoc. exact L1. } rewrite H2 in W2. injection W2 as <-. rewrite A2.
  apply Forall_app in OK as [O1 O2]. inversion O2; subst. apply Forall_app in NT as [N1 N2]. inversion N2; subst.
  destruct (ADD (a ++ info_chunks t ++ b)) as (l3 & W3 & A3).
  { apply Forall_app. split; auto. apply Forall_app. split; auto. apply info_chunks_ok; auto. unfold body in *. rewrite !flat_map_app, !lenN_app in L0. lia. }
  { apply Forall_app. split; auto. apply Forall_app. split; auto using info_no_tag. }
  { rewrite <- !app_assoc. exact L2. }
  destruct (IffThm.C105_list_replaced m a c (b ++ [id3]) junk t) as (l4 & W4 & A4); auto.
  { apply Forall_app. split; auto. constructor; auto. apply Forall_app. auto. } { lia. }
  rewrite <- app_assoc. cbn [app]. exists l3, l4. split; [exact W3|]. split; [exact W4|]. rewrite A3, A4, <- !app_assoc. reflexivity.
Qed.
Print Assumptions C251_wav.
Example C251_wav_ex : same_order (fun d => write_riff_info Strict d [($"INAM", $"A")]) (save_id3_chunk false Strict false w_ex flags0 frames_ex) (riff_file [($"LIST", $"INFO"); ($"data", [1; 2])] ++ [5]) = true.
Proof. vm_compute. reflexivity. Qed.
