(** Property theorems: synchsafe integers and the unsynchronised reader (C01-C04, C38). *)
From Verif Require Import BaseLemmas SynchModel SynchSpec SynchProof.

(** C01 *)
Theorem C01_synch_exact :
  (forall n, n < 2 ^ 8 ->
    (synch8 n = Err tt <-> 2 ^ 7 <= n) /\
    (n < 2 ^ 7 -> exists s, synch8 n = Ok s /\ synchsafe 1 s /\ groups7 1 s = n /\ unsynch8 s = n)) /\
  (forall n, n < 2 ^ 16 ->
    (synch16 n = Err tt <-> 2 ^ 14 <= n) /\
    (n < 2 ^ 14 -> exists s, synch16 n = Ok s /\ synchsafe 2 s /\ groups7 2 s = n /\ unsynch16 s = n)) /\
  (forall n, n < 2 ^ 32 ->
    (synch32 n = Err tt <-> 2 ^ 28 <= n) /\
    (n < 2 ^ 28 -> exists s, synch32 n = Ok s /\ synchsafe 4 s /\ groups7 4 s = n /\ unsynch32 s = n)).
Proof. exact (conj synch8_correct (conj synch16_correct synch32_correct)). Qed.
Print Assumptions C01_synch_exact.
Example C01_ex : synch32 0xFFFFFFF = Ok 0x7F7F7F7F /\ unsynch32 0x7F7F7F7F = 0xFFFFFFF /\ synch16 129 = Ok 0x101.
Proof. vm_compute. auto. Qed.

(** C02 *)
Theorem C02_widening_exact :
  (forall n, n < 2 ^ 8 -> synchsafe 2 (widening8 n) /\ groups7 2 (widening8 n) = n /\ unsynch16 (widening8 n) = n) /\
  (forall n, n < 2 ^ 16 -> synchsafe 4 (widening16 n) /\ groups7 4 (widening16 n) = n /\ unsynch32 (widening16 n) = n) /\
  (forall n, n < 2 ^ 32 -> synchsafe 8 (widening32 n) /\ groups7 8 (widening32 n) = n).
Proof. exact (conj widening8_correct (conj widening16_correct widening32_correct)). Qed.
Print Assumptions C02_widening_exact.
Example C02_ex : widening8 255 = 0x17F /\ widening16 65535 = 0x37F7F /\ widening32 0xFFFFFFFF = 0xF7F7F7F7F.
Proof. vm_compute. auto. Qed.

(** C03: whatever the caller's read sizes and the inner reader's chunks, each read returns the next
    piece (full unless at end) of the resynchronised data. *)
Theorem C03_stream_chunk_independent : forall chunks sched,
  Forall (fun c => c <> []) chunks ->
  us_run sched (ustream_new (map EvData chunks)) = Ok (cut sched (resynchronise (concat chunks))).
Proof. exact us_correct. Qed.
Print Assumptions C03_stream_chunk_independent.
Theorem C03_stream_total : forall chunks sched,
  Forall (fun c => c <> []) chunks ->
  exists outs, us_run sched (ustream_new (map EvData chunks)) = Ok outs /\
    concat outs = takeN (sumN sched) (resynchronise (concat chunks)).
Proof. intros. eexists. split. now apply us_correct. apply cut_concat. Qed.
Print Assumptions C03_stream_total.
Example C03_ex : us_run [1; 2; 5] (ustream_new (map EvData [[1; 255]; [0; 0]; [255; 255; 0; 9]]))
  = Ok [[1]; [255; 0]; [255; 255; 9]].
Proof. vm_compute. reflexivity. Qed.

(** C04 *)
Theorem C04_unsynchronise_inverse : forall data chunks sched,
  Forall (fun c => c <> []) chunks -> concat chunks = unsynchronise data -> lenN data <= sumN sched ->
  exists outs, us_run sched (ustream_new (map EvData chunks)) = Ok outs /\ concat outs = data.
Proof.
  intros. eexists. split. now apply us_correct. rewrite cut_concat, H0, resync_unsync.
  now apply takeN_all.
Qed.
Print Assumptions C04_unsynchronise_inverse.
Example C04_ex : unsynchronise [255; 0; 255; 224] = [255; 0; 0; 255; 0; 224] /\
  us_run [3; 3] (ustream_new (map EvData [[255]; [0; 0; 255]; [0; 224]])) = Ok [[255; 0; 255]; [224]].
Proof. vm_compute. auto. Qed.

(** C38: the same claim with an inner reader that may be interrupted (the caller retries) is false:
    bytes already copied are lost. *)
Theorem C38_interrupted_read_refuted : exists evs sched outs,
  us_run sched (ustream_new evs) = Ok outs /\
  concat outs <> takeN (sumN sched) (resynchronise (flat_map (fun e => match e with EvData c => c | EvIntr => [] end) evs)).
Proof. exists [EvData [1; 2]; EvIntr; EvData [3; 4]], [4], [[3; 4]]. vm_compute. split; auto. discriminate. Qed.
Print Assumptions C38_interrupted_read_refuted.
