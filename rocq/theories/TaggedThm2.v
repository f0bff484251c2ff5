(** The order of the tags of a file (C210). *)
From Verif Require Import BaseLemmas FileModel ProbeProof ProbeThm TaggedModel TaggedThm.

(** The order of the tags in the definitions of the files. *)
Definition order_of (f : ftype) : list tag_type :=
  match f with
  | FAac => [Id3v2; Id3v1]
  | FApe => [Id3v1; Id3v2; Ape]
  | FMpeg | FMpc => [Id3v2; Id3v1; Ape]
  | FWavPack => [Id3v1; Ape]
  | FFlac => [Id3v2; VorbisComments]
  | FOpus | FVorbis | FSpeex => [VorbisComments]
  | FMp4 => [Mp4Ilst]
  | FWav => [RiffInfo; Id3v2]
  | FAiff => [AiffText; Id3v2]
  | FCustom _ => []
  end.
(** The tags of a tagged file are those that the file contains, in this order. *)
Theorem C210_order : forall C T conv (x : nfile T), shaped x -> (forall n, t_type (conv n) = nt_type n) ->
  map (fun t : tag C => t_type t) (tf_tags (to_tagged conv x)) = filter (fun k => file_contains k x) (order_of (nf_type x)).
Proof.
  intros C T conv [f l] [SH TY] CV. cbn [nf_type nf_tags] in *. unfold to_tagged, file_contains. cbn [tf_tags nf_tags nf_type].
  destruct f; cbn [fields order_of] in SH |- *;
    repeat (destruct l as [|[? [?|]] l]; cbn [map fst] in SH; try discriminate SH; try (injection SH as -> SH));
    repeat match goal with H : Forall _ (_ :: _) |- _ => apply Forall_cons_iff in H as [? H] end; cbn [fst snd] in *;
    cbn [flat_map app map filter existsb fst snd tt_eqb andb orb]; rewrite ?CV; congruence.
Qed.
Example C210_order_example : let v1 := mkNt Id3v1 false tt in let ape := mkNt Ape false tt in let conv (n : native unit) := mkTag (C := unit) (nt_type n) [] [] None in
  map (fun t => t_type t) (tf_tags (to_tagged conv (mkNf FWavPack [(Id3v1, Some v1); (Ape, Some ape)]))) = [Id3v1; Ape] /\ shaped (mkNf FWavPack [(Id3v1, Some v1); (Ape, Some ape)]).
Proof. repeat split; repeat constructor. Qed.
