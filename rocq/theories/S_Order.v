(* Vocabulary: what the order of packets, files and options does not change (C101) *)
From Verif Require Import Base M_Packet S_Packet M_Group S_Group M_Merge S_Merge M_Cli S_Cli M_Main S_Main S_Diff S_InfoTotals S_Compose.
Open Scope N_scope.

(* the same elements, in any order and as often as one likes *)
Definition same_members {A} (l l' : list A) : Prop := forall x, In x l <-> In x l'.
(* w is one of the packets of the files at the paths *)
Definition packet_in (paths : list N) (ws : N -> list wire_packet) (w : wire_packet) : Prop := exists p, In p paths /\ In w (ws p).
(* all packets of those files are standalone *)
Definition all_standalone (paths : list N) (ws : N -> list wire_packet) : Prop :=
  forall p w, In p paths -> In w (ws p) -> sequence_flags (w_header w) = 3.
(* the numbers that can be apids *)
Definition same_apids (l l' : list N) : Prop := forall v, v < 65536 -> (In v l <-> In v l').

(* what diff prints, with its columns exchanged *)
Definition mirrored (o : option (amap (N * N)) * list (bool * key)) : option (amap (N * N)) * list (bool * key) :=
  (option_map (map (fun c => (fst c, (snd (snd c), fst (snd c))))) (fst o), map (fun r => (negb (fst r), snd r)) (snd o)).

(* the packets of one apid, in their order *)
Definition of_apid_wires (a : N) (ws : list wire_packet) : list wire_packet := filter (fun w => apid (w_header w) =? a) ws.
(* the packets of every apid are in the same order in both *)
Definition interleaved (ws ws' : list wire_packet) : Prop := forall a, of_apid_wires a ws = of_apid_wires a ws'.
(* equal but for the missing packets *)
Definition same_figures (s s' : isummary) : Prop :=
  i_total s = i_total s' /\ i_first s = i_first s' /\ i_last s = i_last s' /\ i_duration s = i_duration s'.
