(* Model of frame_decoder, derandomize and packet_decoder over any iterator, pulled one item at a time: an iterator that
   reports an end and goes on afterwards, that panics, or whose next does not return. M_Frame.v and M_FramePackets.v model
   the same functions on a finite list of items. *)
From Verif Require Import Base M_Reader M_Packet M_Sync M_Pn M_Frame M_FramePackets M_Group M_Live M_Pipeline.
Open Scope nat_scope.

(* framing/pipeline/framing.rs:5-11 CaduDecoderIter *)
Record decoding (S : Type) : Type := mkDecoding { dc_counters : amap N; dc_src : S }.
Arguments mkDecoding {S} _ _.
Arguments dc_counters {S} _.
Arguments dc_src {S} _.
(* framing.rs:50-55 frame_decoder *)
Definition decoding_new {S} (src : S) : decoding S := mkDecoding [] src.
(* framing.rs:19-39 next. What is done with one CADU is fdec_next of M_Frame.v with that CADU as its input *)
Definition decoding_next {S} (ovf : bool) (next : pullable S block) : pullable (decoding S) frame := fun fuel s =>
  match next fuel (dc_src s) with
  | None => None
  | Some Panic => Some Panic
  | Some (Val (None, src')) => Some (Val (None, mkDecoding (dc_counters s) src'))
  | Some (Val (Some cadu, src')) =>
      Some (let* '(f, d) := fdec_next ovf (mkFdec (dc_counters s) [cadu]) in Val (f, mkDecoding (fd_counters d) src'))
  end.

(* framing/pipeline/mod.rs:16-26 derandomize *)
Definition derandomized {S} (next : pullable S block) : pullable S block := mapped derandomize_cadu next.

(* framing/packets.rs:54-67 FramedPacketIter *)
Record unpack (S : Type) : Type := mkUnpack { un_src : S; un_trackers : amap tracker; un_ready : list packet }.
Arguments mkUnpack {S} _ _ _.
Arguments un_src {S} _.
Arguments un_trackers {S} _.
Arguments un_ready {S} _.
(* framing/packets.rs:73-81, framing/pipeline/packets.rs:39-50 packet_decoder *)
Definition unpack_new {S} (src : S) : unpack S := mkUnpack src [] [].
(* framing/packets.rs:97-219; when the source ends there is nothing ready, so the last pop_front returns None *)
Fixpoint unpack_loop {S} (izone trailer : nat) (next : pullable S frame) (fuel : nat) (src : S) (m : amap tracker)
  : option (outcome (option packet * unpack S)) :=
  match fuel with
  | O => None
  | S fuel =>
      match next fuel src with
      | None => None
      | Some Panic => Some Panic
      | Some (Val (None, src')) => Some (Val (None, mkUnpack src' m []))
      | Some (Val (Some f, src')) =>
          let v := v_vcid (f_header f) in
          match fp_frame izone trailer (get_tracker v m) f with
          | Panic => Some Panic
          | Val ([], t) => unpack_loop izone trailer next fuel src' (aset v t m)
          | Val (p :: ps, t) => Some (Val (Some p, mkUnpack src' (aset v t m) ps))
          end
      end
  end.
(* framing/packets.rs:90-220 next *)
Definition unpack_next {S} (izone trailer : nat) (next : pullable S frame) : pullable (unpack S) packet := fun fuel s =>
  match un_ready s with
  | p :: ps => Some (Val (Some p, mkUnpack (un_src s) (un_trackers s) ps))
  | [] => unpack_loop izone trailer next fuel (un_src s) (un_trackers s)
  end.
