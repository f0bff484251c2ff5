(** Number pairs of ID3v2 tags as items (C158). *)
From Coq Require Import Permutation.
From Verif Require Import BaseLemmas FrameProof2 ItemKeyThm Id3v2TagProof2 Id3v2TagProof3 Id3v2TagProof4 Id3v2TagProof5 Id3v2TagThm2.
From Verif Require Import Id3v2TagSpec.

Definition NUMBERS : list (str * item_key * item_key) :=
  [($"TRCK", KTrackNumber, KTrackTotal); ($"TPOS", KDiscNumber, KDiscTotal); ($"MVIN", KMovementNumber, KMovementTotal)].
(** "n/m" in one of the three frames becomes two items. *)
Theorem C158_numbers : forall custom preserve id a b n m, In (id, a, b) NUMBERS -> n <= U32_MAX -> m <= U32_MAX ->
  t_items (to_tag custom preserve (mkT V4 NO_FLAGS [text_frame id (to_dec n ++ $"/" ++ to_dec m)])) = [text_item a (to_dec n); text_item b (to_dec m)].
Proof.
  intros custom preserve id a b n m I N M.
  assert (K : number_keys id = Some (a, b)) by (cbn [In NUMBERS] in I; repeat destruct I as [I|I]; try contradiction; injection I as <- <- <-; reflexivity).
  assert (S : split_frame custom (text_frame id (to_dec n ++ $"/" ++ to_dec m)) = consumed [text_item a (to_dec n); text_item b (to_dec m)]).
  { cbn [split_frame text_frame]. change (f_name _) with id. rewrite K, split_pair_two by auto. reflexivity. }
  unfold to_tag, split_tag. cbn [t_frames map]. rewrite S. reflexivity.
Qed.
(** Those of a movement are dropped on the way back. *)
Theorem C158_movement_refuted : forall custom preserve n m, n <= U32_MAX -> m <= U32_MAX ->
  t_frames (of_tag id_order custom preserve (to_tag custom preserve (mkT V4 NO_FLAGS [text_frame ($"MVIN") (to_dec n ++ $"/" ++ to_dec m)]))) = [].
Proof.
  intros custom preserve n m N M.
  assert (S : split_frame custom (text_frame ($"MVIN") (to_dec n ++ $"/" ++ to_dec m)) = consumed [text_item KMovementNumber (to_dec n); text_item KMovementTotal (to_dec m)]).
  { cbn [split_frame text_frame]. change (f_name _) with ($"MVIN"). change (number_keys ($"MVIN")) with (Some (KMovementNumber, KMovementTotal)). cbv iota. rewrite split_pair_two by auto. reflexivity. }
  unfold to_tag, split_tag. cbn [t_frames map]. rewrite S. destruct preserve; reflexivity.
Qed.
Example C158_numbers_example : t_items (to_tag DefaultProvider true (mkT V4 NO_FLAGS [text_frame ($"MVIN") ($"3/5")])) = [text_item KMovementNumber ($"3"); text_item KMovementTotal ($"5")].
Proof. exact (C158_numbers DefaultProvider true ($"MVIN") KMovementNumber KMovementTotal 3 5 ltac:(cbn; tauto) ltac:(discriminate) ltac:(discriminate)). Qed.
