(* Vocabulary for packets written to a file as they are decoded (C96) *)
From Verif Require Import Base S_Bits S_Packet M_Packet M_Group S_Group M_Merge S_Merge S_Compose.
Open Scope N_scope.

(* the bytes of the packet are one packet, and its header is that of its bytes *)
Definition whole (p : packet) : Prop :=
  bytes_ok (p_data p) /\ (6 <= length (p_data p))%nat /\ p_header p = spec_header (p_data p) /\ length (p_data p) = wire_len (p_data p).
(* at most 65536 bytes *)
Definition moderate (p : packet) : Prop := N.of_nat (length (p_data p)) <= 65536.
(* the file: the data of the packets, one after the other *)
Definition recording (ps : list packet) : list N := concat (map p_data ps).
(* the packets as read from that file: each at the position of its first byte *)
Fixpoint placed (off : nat) (ps : list packet) : list packet :=
  match ps with
  | [] => []
  | p :: ps => mkPacket (p_header p) (p_data p) off :: placed (off + length (p_data p))%nat ps
  end.
(* equal but for the position *)
Definition alike (p q : packet) : Prop := p_header p = p_header q /\ p_data p = p_data q.
Definition alike_groups (g g' : pgroup) : Prop := g_apid g = g_apid g' /\ Forall2 alike (g_packets g) (g_packets g').
(* g is one of the groups that collect_groups makes of one of the lists of packets, and is to be merged; its key *)
Definition wanted (m : merger) (ps : N -> list packet) (g : pgroup) (k : Z * N * N) : Prop :=
  exists p gs f rest t, In p (mg_paths m) /\ grouping (ps p) gs /\ In g gs /\ g_packets g = f :: rest /\
    (sequence_flags (p_header f) = 1 \/ sequence_flags (p_header f) = 3) /\
    mg_time m f = Some t /\ within m t /\ requested m (apid_of f) /\ k = (t, apid_of f, seq f).
