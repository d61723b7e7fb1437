(* Model of ccsds-lib/src/framing/packets.rs and framing/pipeline/packets.rs *)
From Verif Require Import Base M_Packet M_Frame.
Open Scope N_scope.

(* framing/packets.rs:13-39; the vcid is the key in the map. reset = tracker_new *)
Record tracker : Type := mkTracker { tr_sync : bool; tr_cache : list N; tr_rs : bool }.
Definition tracker_new : tracker := mkTracker false [] false.

(* framing/packets.rs:223-229 *)
Definition valid_packet_header (h : header) : bool :=
  negb (negb (version h =? 0) || negb (type_flag h =? 0)).

(* `PrimaryHeader::decode(..).expect(..)` *)
Definition expect_header (buf : list N) : outcome header :=
  let* r := header_decode buf in
  match r with Ok h => Val h | Err _ => Panic end.

(* framing/packets.rs:188-212: the extraction loop. [fuel] bounds the iterations; running out of it
   is Panic and is excluded by extract_carve in L_FramePackets.v.
   Returns the packets pushed and the tracker. *)
Fixpoint fp_extract (fuel : nat) (t : tracker) (need : nat) : outcome (list packet * tracker) :=
  match fuel with
  | O => Panic
  | S fuel =>
      let* data := slice (tr_cache t) 0 need in
      let* tail := slice_from (tr_cache t) need in
      let* h := expect_header data in
      let p := mkPacket h data 0%nat in
      let t := mkTracker (tr_sync t) tail (tr_rs t) in
      if (length tail <? HDR_LEN)%nat then Val ([p], t) else
      let* h2 := expect_header tail in
      if negb (valid_packet_header h2) then Val ([p], tracker_new) else
      let need := (N.to_nat (len_minus1 h2) + 1 + HDR_LEN)%nat in
      if (length tail <? need)%nat then Val ([p], t) else
      let* '(ps, t') := fp_extract fuel t need in Val (p :: ps, t')
  end.

(* framing/packets.rs:161-212: after the cache was extended *)
Definition fp_cache (t : tracker) : outcome (list packet * tracker) :=
  if (length (tr_cache t) <? HDR_LEN)%nat then Val ([], t) else
  let* h := expect_header (tr_cache t) in
  if negb (valid_packet_header h) then Val ([], tracker_new) else
  let need := (N.to_nat (len_minus1 h) + 1 + HDR_LEN)%nat in
  if (length (tr_cache t) <? need)%nat then Val ([], t) else
  fp_extract (S (length (tr_cache t))) t need.

(* framing/packets.rs:104-214: the body of the 'next_frame loop for one frame, given the tracker of
   its vcid. An empty packet list is a `continue`. *)
Definition fp_frame (izone trailer : nat) (t : tracker) (f : frame)
  : outcome (list packet * tracker) :=
  let* om := frame_mpdu f izone trailer in
  match om with
  | None => Panic                                  (* unwrap *)
  | Some m =>
      match f_integrity f with
      | Some IUncorrectable | Some INotCorrected => Val ([], tracker_new)
      | _ =>
          let t := match f_integrity f with
                   | Some ICorrected => mkTracker (tr_sync t) (tr_cache t) true
                   | _ => t
                   end in
          let t := if 0 <? f_missing f then tracker_new else t in
          let* payload := mpdu_payload m in
          if tr_sync t then
            fp_cache (mkTracker true (tr_cache t ++ payload) (tr_rs t))
          else if negb (mpdu_has_header m) then Val ([], t)
          else if mpdu_is_fill m then Val ([], t)
          else if (length payload <? mpdu_header_offset m)%nat then Val ([], t)
          else
            let* c := slice_from payload (mpdu_header_offset m) in
            fp_cache (mkTracker true c (tr_rs t))
      end
  end.

(* framing/packets.rs:54-67; the upstream iterator is a finite list *)
Record fpiter : Type := mkFpiter {
  fp_frames : list frame;
  fp_trackers : amap tracker;
  fp_ready : list packet }.
(* framing/packets.rs:73-81, framing/pipeline/packets.rs:39-50 packet_decoder *)
Definition packet_decoder (frames : list frame) : fpiter := mkFpiter frames [] [].

Definition get_tracker (v : N) (m : amap tracker) : tracker :=
  match aget v m with Some t => t | None => tracker_new end.

(* framing/packets.rs:96-219 *)
Fixpoint fp_loop (izone trailer : nat) (frames : list frame) (m : amap tracker)
  : outcome (option packet * fpiter) :=
  match frames with
  | [] => Val (None, mkFpiter [] m [])
  | f :: fs =>
      let v := v_vcid (f_header f) in
      let* '(ps, t) := fp_frame izone trailer (get_tracker v m) f in
      let m := aset v t m in
      match ps with
      | [] => fp_loop izone trailer fs m
      | p :: ps => Val (Some p, mkFpiter fs m ps)
      end
  end.

(* framing/packets.rs:90-220 FramedPacketIter::next *)
Definition fpiter_next (izone trailer : nat) (s : fpiter) : outcome (option packet * fpiter) :=
  match fp_ready s with
  | p :: ps => Val (Some p, mkFpiter (fp_frames s) (fp_trackers s) ps)
  | [] => fp_loop izone trailer (fp_frames s) (fp_trackers s)
  end.
