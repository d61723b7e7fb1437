(* Vocabulary: frames with damaged payloads (C108) *)
From Verif Require Import Base S_Bits M_Packet M_Frame S_Packet S_FramePackets S_Damage.
Open Scope nat_scope.

(* f' is f with other bytes in the payload *)
Definition other_payload (izone trailer : nat) (f f' : frame) : Prop :=
  f_header f' = f_header f /\ f_missing f' = f_missing f /\ f_integrity f' = f_integrity f /\ length (f_data f') = length (f_data f) /\
  bytes_ok (f_data f') /\ pointer_of izone trailer f' = pointer_of izone trailer f.
(* the stream of ws with the payloads of the frames fs as the bytes a .. e-1 *)
Definition received (izone trailer : nat) (ws : list wire_packet) (a : nat) (fs : list frame) (e : nat) : list N :=
  firstn a (stream ws) ++ concat (map (payload_of izone trailer) fs) ++ skipn e (stream ws).
(* the version, type and length of every packet are the same *)
Definition cuts_kept (ws : list wire_packet) (bs bs' : list N) : Prop :=
  forall k, k < length ws -> kept_at bs bs' (start ws k) /\ kept_at bs bs' (start ws k + 4) /\ kept_at bs bs' (start ws k + 5).
