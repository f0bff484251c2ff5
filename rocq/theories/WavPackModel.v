(** Model of lofty/src/wavpack: read.rs and properties.rs. The reader is the file and a position; only the end of the file makes a read
    fail, and seeking past it does not. Allocation does not fail (a block is at most 1 MiB). An error in the sub-blocks of a block leaves
    the properties as they are at that point, so that [wv_meta] gives them with the error. f64 arithmetic as in [AiffModel.v]. The
    derived writer of the file is not modelled (it is that of the tags). *)
From Verif Require Import Base Str ItemKeyModel Id3v1Model Id3v2HeaderModel FrameReadModel ApeModel AiffModel MpegModel.

Inductive wv_error := WIo | WFormat | WShort | WLong | WMeta | WRate | WVersion | WDuration | WTag | WSize.

(** properties.rs 12-25; a channel mask is its bits *)
Record wv_props := mkWP { wp_version : N; wp_duration : N; wp_overall : N; wp_audio : N; wp_rate : N; wp_channels : N; wp_mask : N; wp_depth : N; wp_lossless : bool }.
Definition wv_default : wv_props := mkWP 0 0 0 0 0 0 0 0 false.
Definition with_rate (p : wv_props) (n : N) := mkWP (wp_version p) (wp_duration p) (wp_overall p) (wp_audio p) n (wp_channels p) (wp_mask p) (wp_depth p) (wp_lossless p).
Definition with_channels (p : wv_props) (n m : N) := mkWP (wp_version p) (wp_duration p) (wp_overall p) (wp_audio p) (wp_rate p) n m (wp_depth p) (wp_lossless p).
Definition with_format (p : wv_props) (version depth : N) (lossless : bool) := mkWP version (wp_duration p) (wp_overall p) (wp_audio p) (wp_rate p) (wp_channels p) (wp_mask p) depth lossless.
Definition with_times (p : wv_props) (d o a : N) := mkWP (wp_version p) d o a (wp_rate p) (wp_channels p) (wp_mask p) (wp_depth p) (wp_lossless p).
(** lines 27-44: [channels as u8] *)
Definition wv_file_props (p : wv_props) : file_props :=
  mkFileP (wp_duration p) (Some (wp_overall p)) (Some (wp_audio p)) (Some (wp_rate p)) (Some (wp_depth p)) (Some (wp_channels p mod 256))
    (if wp_mask p =? 0 then None else Some (wp_mask p)).
(** lines 121-124 *)
Definition WV_RATES : list N := [6000; 8000; 9600; 11025; 12000; 16000; 22050; 24000; 32000; 44100; 48000; 64000; 88200; 96000; 192000; 0].

(** lines 236-292 *)
Record wv_header := mkWH { wh_version : N; wh_size : N; wh_total : N; wh_samples : N; wh_flags : N }.
Definition le_at (n : nat) (data : bytes) (pos : N) : option N := match read_exact (N.of_nat n) (dropN pos data) with Some (b, _) => Some (le_dec b) | None => None end.
Definition wv_header_read (data : bytes) (pos : N) : res wv_error wv_header :=
  match read_exact 4 (dropN pos data) with
  | None => Err WIo
  | Some (id, _) =>
      if negb (list_eqb id ($"wvpk")) then Err WFormat else
      match le_at 4 data (pos + 4) with
      | None => Err WIo
      | Some size =>
          if size <? 24 then Err WShort else if 1048576 <? size then Err WLong else
          match le_at 2 data (pos + 8), le_at 4 data (pos + 12), le_at 4 data (pos + 20), le_at 4 data (pos + 24) with
          | Some version, Some total, Some samples, Some flags => Ok (mkWH version size total samples flags)
          | _, _, _, _ => Err WIo
          end
      end
  end.

(** lines 294-440: the sub-blocks. Each round consumes two bytes. *)
Fixpoint wv_meta (fuel : nat) (strict : bool) (r : bytes) (p : wv_props) : wv_props * option wv_error :=
  match fuel with
  | O => (p, Some WIo)
  | S fuel =>
      match r with
      | id :: s0 :: r1 =>
          match (if N.testbit id 7 then match r1 with s1 :: s2 :: r2 => Some (2 * s0 + 2 ^ 9 * s1 + 2 ^ 17 * s2, r2) | _ => None end else Some (2 * s0, r1)) with
          | None => (p, Some WIo)
          | Some (full, r2) =>
              if full =? 0 then wv_meta fuel strict r2 p
              else if lenN r2 <? full then (p, Some WMeta)
              else
                let odd := N.testbit id 6 in
                let size := if odd then full - 1 else full in
                let kind := N.land id 0x3F in
                let next p rest size :=
                  if lenN rest <? size then (p, Some WMeta) else
                  let rest := dropN size rest in
                  if odd then match rest with [] => (p, Some WIo) | _ :: rest => wv_meta fuel strict rest p end else wv_meta fuel strict rest p in
                if kind =? 0x27 then
                  if size <? 3 then (p, Some WMeta) else
                  match read_exact 3 r2 with
                  | None => (p, Some WIo)
                  | Some (b, rest) => next (with_rate p (le_dec b)) rest (size - 3)
                  end
                else if kind =? 0xE then
                  if size <=? 1 then (p, Some WMeta) else
                  match r2 with
                  | [] => (p, Some WIo)
                  | m :: rest =>
                      if 30 <? m then (if strict then (p, Some WMeta) else (p, None))
                      else next (with_rate p (wp_rate p * 2 ^ m mod 2 ^ 32)) rest (size - 1)
                  end
                else if kind =? 0xD then
                  if size <=? 1 then (p, Some WMeta) else
                  match r2 with
                  | [] => (p, Some WIo)
                  | c :: rest =>
                      let mask n p c rest left := match read_exact n rest with
                                     | None => (p, Some WIo)
                                     | Some (b, rest) => next (with_channels p c (le_dec b)) rest left
                                     end in
                      let p1 := with_channels p c (wp_mask p) in
                      if size =? 2 then mask 1 p1 c rest (size - 1)
                      else if size =? 3 then mask 2 p1 c rest (size - 2)
                      else if size =? 4 then mask 3 p1 c rest (size - 3)
                      else if size =? 5 then mask 4 p1 c rest (size - 4)
                      else if (size =? 6) || (size =? 7) then
                        match rest with
                        | [] => (p1, Some WIo)
                        | h :: rest =>
                            let c := N.lor c (N.shiftl (N.land h 0xF) 8) + 1 in
                            if size =? 6 then mask 3 (with_channels p c (wp_mask p)) c rest (size - 4)
                            else mask 4 (with_channels p c (wp_mask p)) c rest (size - 5)
                        end
                      else (p1, Some WMeta)
                  end
                else next p r2 size
          end
      | _ => (p, None)
      end
  end.

(** lines 127-211: the loop over the blocks. Each round goes forward by 32 bytes. *)
Fixpoint wv_blocks (fuel : nat) (strict : bool) (data : bytes) (off : N) (p : wv_props) (total : N) : res wv_error (wv_props * N) :=
  match fuel with
  | O => Panic
  | S fuel =>
      match wv_header_read data off with
      | Panic => Panic
      | Err e => if strict then Err e else Ok (p, total)
      | Ok h =>
          let flags := wh_flags h in
          let index := N.land (N.shiftr flags 23) 15 in
          let p := with_rate p (nth (N.to_nat index) WV_RATES 0) in
          let go (p : wv_props) : res wv_error (wv_props * N) :=
            let initial := N.testbit flags 11 in
            let final := N.testbit flags 12 in
            if initial && ((wh_version h <? 0x402) || (0x410 <? wh_version h)) then (if strict then Err WVersion else Ok (p, total)) else
            let total := if initial then wh_total h else total in
            let p := if initial then with_format p (wh_version h) ((N.land flags 3 + 1) * 8 - N.land (N.shiftr flags 13) 31) (negb (N.testbit flags 3)) else p in
            let p := if initial && final then (if N.testbit flags 2 then with_channels p 1 4 else with_channels p 2 3) else p in
            if (wh_samples h =? 0) || negb final then wv_blocks fuel strict data (off + wh_size h + 8) p total else Ok (p, total) in
          if (index =? 15) || N.testbit flags 31 then
            match read_exact (wh_size h - 24) (dropN (off + 32) data) with
            | None => Err WIo
            | Some (block, _) =>
                match wv_meta (S (length block)) strict block p with
                | (p, Some e) => if strict then Err e else Ok (p, total)
                | (p, None) => if (index =? 15) && (wp_rate p =? 0) then (if strict then Err WRate else Ok (p, total)) else go p
                end
            end
          else go p
      end
  end.
(** lines 213-234 *)
Definition wv_properties (strict : bool) (data : bytes) (stream_len : N) : res wv_error wv_props :=
  let? (p, total) := wv_blocks (S (length data)) strict data 0 wv_default 0 in
  if total =? U32_MAX then Ok p
  else if (total =? 0) || (wp_rate p =? 0) then (if strict then Err WDuration else Ok p)
  else
    let length := r_div (r_mul (of_int total) (1000, 1)) (of_int (wp_rate p)) in
    let kbps n := to_int U32_MAX (r_add (r_div (r_mul (of_int n) (8, 1)) length) (1, 2)) in
    Ok (with_times p (to_int U64_MAX (r_add length (1, 2))) (kbps (lenN data)) (kbps stream_len)).

Record wv_file := mkWF { wf_id3v1 : option id3v1; wf_ape : option ape_tag; wf_props : wv_props }.
Definition wv_tag {E A} (r : res E A) : res wv_error A := match r with Ok x => Ok x | Err _ => Err WTag | Panic => Panic end.
(** read.rs 10-68 *)
Definition wv_read (o : mopts) (data : bytes) : res wv_error wv_file :=
  let (p1, found) := find_id3v1 data in
  let? v1 := (if found && mo_tags o then let? t := wv_tag (v1_parse (dropN p1 data) (mo_strict o)) in Ok (Some t) else Ok None) in
  let stream_len := if found then lenN data - 128 else lenN data in
  let? (_, lyrics, pos) := wv_tag (find_lyrics3v2 data p1) in
  if stream_len <? lyrics then Err WSize else
  let stream_len := stream_len - lyrics in
  match seek_back pos 32 with
  | None => Err WIo
  | Some s =>
      let? (t, h, _) := wv_tag (read_ape_tag data true (fo_cover (mo_frames o)) (mo_tags o) (rd_at data s)) in
      let? stream_len := (match h with Some (size, _) => if stream_len <? size then Panic else Ok (stream_len - size) | None => Ok stream_len end) in
      if mo_props o then let? p := wv_properties (mo_strict o) data stream_len in Ok (mkWF v1 t p) else Ok (mkWF v1 t wv_default)
  end.
