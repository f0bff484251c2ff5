From Verif Require Import Base BaseLemmas Str StrLemmas TextModel TextSpec TextProof Mode PictureModel FileModel Mp4Model Mp4WriteModel Mp4Spec Mp4Proof Mp4Proof2 Mp4Proof3 Mp4Proof4 Mp4Proof5 Mp4Proof6 Mp4Proof7 Mp4Proof8 Mp4Proof9.

(** ** A small file: one track with one chunk, a tag with a title and some free space, then the media data *)
Definition ftyp_ex : box := leaf ($"ftyp") ($"M4A " ++ [0; 0; 2; 0]).
Definition stco_ex (offs : list N) : box := leaf ($"stco") ([0; 0; 0; 0] ++ be_enc 4 (lenN offs) ++ flat_map (be_enc 4) offs).
Definition trak_ex (t : box) : box := node ($"trak") [leaf ($"tkhd") [1]; node ($"mdia") [leaf ($"mdhd") [2]; node ($"minf") [node ($"stbl") [leaf ($"stsd") [3]; t]]]].
Definition hdlr_ex : box := leaf ($"hdlr") (repeat 0 8 ++ $"mdirappl" ++ repeat 0 9).
Definition nam (s : str) : atom := mkAtom (Fourcc (0xA9 :: $"nam")) [AUtf8 s].
Definition ilst_ex (s : str) : box := leaf ($"ilst") (item_box (nam s)).
Definition free_ex (n : nat) : box := leaf ($"free") (repeat 1 n).
Definition mdat_ex : box := leaf ($"mdat") [100; 101; 102; 103; 104].
Definition file_ex (offs : list N) (s : str) (f : list box) : list box :=
  mp4_file [ftyp_ex] [leaf ($"mvhd") [9]; trak_ex (stco_ex offs)] [] ([0; 0; 0; 0] ++ encs ([hdlr_ex] ++ [] ++ ilst_ex s :: f ++ [])) [] [] [mdat_ex].
Definition read_ex : mopts := mkMo BestAttempt true true true true.
(** Deciding that a concrete tree is well-formed *)
Definition boxb_leaf (s : N) (id c : bytes) : bool :=
  (s =? 8 + lenN c) && (s <? 2 ^ 32) && (lenN id =? 4) && forallb (fun b => ((32 <=? b) && (b <=? 126)) || (b =? 169)) id && negb (list_eqb id ($"----")) && negb (existsb (list_eqb id) CONTAINERS).
Fixpoint boxb (b : box) : bool :=
  match b with
  | Leaf s id c => boxb_leaf s id c
  | Node s id ks => (s =? 8 + lenN (flat_map enc ks)) && (s <? 2 ^ 32) && existsb (list_eqb id) CONTAINERS &&
      (fix all (l : list box) : bool := match l with [] => true | k :: l => boxb k && all l end) ks
  end.
Lemma existsb_In : forall id l, existsb (list_eqb id) l = true <-> In id l.
Proof.
  intros id l. rewrite existsb_exists. split.
  - intros (x & I & E). apply list_eqb_eq in E. now subst.
  - intros I. exists id. split; auto. apply list_eqb_refl.
Qed.
Lemma boxb_ok : forall b, boxb b = true -> box_ok b.
Proof.
  fix IH 1. intros [s id c|s id ks].
  - cbn [boxb box_ok]. unfold boxb_leaf. intros H. rewrite !andb_true_iff in H. destruct H as (((((H1 & H2) & H3) & H4) & H5) & H6).
    split; [lia|]. split; [lia|]. split.
    + split; [lia|]. rewrite forallb_forall in H4. apply Forall_forall. intros x X. specialize (H4 x X). lia.
    + rewrite negb_true_iff in H5, H6. split.
      * intros ->. vm_compute in H5. discriminate.
      * intros I. apply existsb_In in I. congruence.
  - cbn [boxb box_ok]. rewrite !andb_true_iff. intros (((H1 & H2) & H3) & H4). split; [lia|]. split; [lia|]. split; [now apply existsb_In|].
    clear H1 H2 H3. induction ks as [|k ks IHk]; [exact I|]. apply andb_true_iff in H4. destruct H4 as [A B]. split; [now apply IH|now apply IHk].
Qed.
Lemma boxesb_ok : forall l, forallb boxb l = true -> boxes_ok l.
Proof. intros l H. apply Forall_forall. rewrite forallb_forall in H. intros x X. apply boxb_ok; auto. Qed.
