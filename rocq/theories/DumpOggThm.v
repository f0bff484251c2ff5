(** C244 for OGG files: the dumped comments are in the comment packet in one piece, between the signature and the framing bit; pages may divide the packet. *)
From Verif Require Import BaseLemmas StrLemmas TextProof PictureThm OggSpec OggCrcProof OggProof OggReadProof OggPacketsProof OggPagProof OggFinal VorbisThm FlacMoveThm OggFileModel OggFileProof OggFileThm.
From Verif Require DumpThm.

Lemma dump_packet : forall t b sig fr, vc_dump t = Ok b -> create_metadata_packet t sig fr = Ok (sig ++ b ++ (if fr then [1] else [])).
Proof.
  intros t b sig fr D. unfold vc_dump in D. unfold create_metadata_packet in *. destruct (create_comments (vc_items t)) as [x| |]; cbn [bind] in *; try discriminate.
  destruct (create_pictures (vc_pics t)) as [y| |]; cbn [bind] in *; try discriminate. destruct (U32_MAX <? lenN (x ++ y)); [discriminate|].
  assert (E : b = vendor_bytes (vc_vendor t) ++ le_enc 4 (lenN (x ++ y)) ++ flat_map comment_bytes (x ++ y)) by (cbn [app] in D; rewrite app_nil_r in D; congruence).
  rewrite E, <- !app_assoc. reflexivity.
Qed.
Theorem C244_ogg : forall f t hp ap tail p0 vb extra rest b, ogg_layout f hp ap tail p0 vb extra rest ->
  Forall (fun i => str_ok (fst i) /\ str_ok (snd i)) (vc_items t) -> utf8_dec vb = Some (vc_vendor t) -> vc_dump t = Ok b ->
  lenN ap + lenN p0 + lenN b + lenN (concat rest) + 12 <= 2 ^ 32 ->
  exists np ap' log, ogg_write f (ogg_data hp ap tail) t = Ok log /\ apply_log (ogg_data hp ap tail) log = bytes_of np ++ bytes_of ap' /\ renumbered (lenN np) ap ap' /\
    holds np (p0 :: (comment_sig f ++ b ++ (if has_framing f then [1] else [])) :: rest).
Proof.
  intros f t hp ap tail p0 vb extra rest b H I V D L. pose proof (dump_packet t b (comment_sig f) (has_framing f) D) as CP.
  assert (ST : saved_tag vb t = t) by (unfold saved_tag, kept_vendor; rewrite V; now destruct t).
  destruct (C95_save f t hp ap tail p0 vb extra rest (comment_sig f ++ b ++ (if has_framing f then [1] else []))) as (first & np & ap' & log & _ & W & A & (HN & _) & R & _); auto.
  { now rewrite ST. }
  { rewrite !lenN_app. assert (lenN (comment_sig f) <= 8) by (destruct f; vm_compute; discriminate). assert (lenN (if has_framing f then [1] else []) <= 1) by (destruct f; vm_compute; discriminate). lia. }
  exists np, ap', log. auto.
Qed.
(** The vendor of the file is kept here too. *)
Theorem C244_ogg_refuted : exists t b log, vc_dump t = Ok b /\ ogg_write Opus (ogg_data ex_hp ex_ap []) t = Ok log /\ ~ DumpThm.holds b (apply_log (ogg_data ex_hp ex_ap []) log).
Proof.
  exists ex_tag. eexists _, _. split; [vm_compute; reflexivity|]. split; [vm_compute; reflexivity|].
  intro H. apply DumpThm.holdsb_true in H. vm_compute in H. discriminate H.
Qed.
Example C244_ogg_ex : exists b log, vc_dump (mkVc ($"abc") [($"TITLE", $"t")] []) = Ok b /\ ogg_write Opus (ogg_data ex_hp ex_ap []) (mkVc ($"abc") [($"TITLE", $"t")] []) = Ok log /\
  DumpThm.holdsb ($"OpusTags" ++ b) (apply_log (ogg_data ex_hp ex_ap []) log) = true.
Proof. eexists _, _. split; [vm_compute; reflexivity|]. split; [vm_compute; reflexivity|]. vm_compute. reflexivity. Qed.
Print Assumptions C244_ogg.
Print Assumptions C244_ogg_refuted.
