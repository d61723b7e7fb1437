(* Specification of merging with times of both time scales (C95) *)
From Verif Require Import Base S_Packet M_Packet M_Group M_Timecode S_Group M_Merge S_Merge S_MergeTd.
Open Scope nat_scope.

Section Any.
Context (instant : epoch -> Z) (ovf : bool) (default : format) (regs : registered).
(* the time of a packet: what timecode::decode makes of its data with the format for its apid *)
Definition stamp (p : packet) (e : epoch) : Prop :=
  exists f, format_for default regs (apid_of p) f /\ timecode_decode ovf f (skipn 6 (p_data p)) = Val (Ok e).
(* the limits, both UTC *)
Definition lower (m : merger) : epoch := mkEpoch UTC match mg_from m with Some us => Z.of_N us * 1000 | None => 0 end%Z.
Definition upper (m : merger) : epoch := mkEpoch UTC match mg_to m with Some us => Z.of_N us * 1000 | None => 109573 * 86400 * 1000000000 end%Z.
(* g is a group of one of the files and is to be merged; its key: instant, apid and sequence id of its first packet *)
Definition due (m : merger) (ws : N -> list wire_packet) (g : pgroup) (k : Z * N * N) : Prop :=
  exists p gs f rest e,
    In p (mg_paths m) /\ grouping (packets_at 0 (ws p)) gs /\ In g gs /\ g_packets g = f :: rest /\
    (sequence_flags (p_header f) = 1 \/ sequence_flags (p_header f) = 3)%N /\
    stamp f e /\ (instant (lower m) <= instant e < instant (upper m))%Z /\ requested m (apid_of f) /\
    k = (instant e, apid_of f, seq f).
(* no group's time panics (S_MergeTd's time_panics; CUC formats never do) *)
Definition no_panics (m : merger) (ws : N -> list wire_packet) : Prop :=
  forall p gs g q f, In p (mg_paths m) -> grouping (packets_at 0 (ws p)) gs -> In g gs -> begins_with g q ->
    format_for default regs (apid (p_header q)) f -> ~ time_panics ovf f (skipn 6 (p_data q)).
End Any.
