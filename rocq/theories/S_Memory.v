(* Specification: what iterators keep between calls of next *)
From Verif Require Import Base M_Packet M_Bytes M_Sync M_Frame M_FramePackets M_Summary S_Packet S_FramePackets.
Open Scope N_scope.

(* s' is s after any number of calls of next *)
Inductive later {S A : Type} (next : S -> outcome (option A * S)) : S -> S -> Prop :=
| later_now : forall s, later next s s
| later_next : forall s a s' s'', next s = Val (a, s') -> later next s' s'' -> later next s s''.

(* packet_decoder: the bytes of an unfinished packet that it keeps for a channel; the channels it knows; the bytes of the
   packets it has found and not returned yet *)
Definition unfinished (s : fpiter) (v : N) : nat := length (match aget v (fp_trackers s) with Some t => tr_cache t | None => [] end).
Definition channels (s : fpiter) : list N := map fst (fp_trackers s).
Definition packet_bytes (ps : list packet) : nat := length (concat (map p_data ps)).
Definition found (s : fpiter) : nat := packet_bytes (fp_ready s).
(* all of it, over its channels *)
Definition total_unfinished (s : fpiter) : nat := list_sum (map (unfinished s) (channels s)).
(* the longest packet there is *)
Definition LONGEST : N := 65542.

(* Synchronizer: bytes read and put back *)
Definition put_back (s : biter) : nat := length (b_cache (sy_bytes (bi_sync s))).
(* frame_decoder: the channels it remembers a counter of; Summary: the apids it has figures of *)
Definition remembered (s : fdec) : list N := map fst (fd_counters s).
Definition figures (s : summary) : list N := map fst (s_apids s).
(* the apids it keeps the header of the last packet of *)
Definition last_seen (s : summary) : list N := map fst (s_seen s).
