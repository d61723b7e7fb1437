(* Specification of the figures of the info command *)
From Verif Require Import Base S_Packet S_Group M_Packet M_Merge S_Merge M_Cli S_Cli.
Open Scope N_scope.

(* without a decoder no packet has a time *)
Definition no_time (p : packet) : option Z := None.
(* the times a decoder gives, if there is one *)
Definition tf (time_of : option (packet -> option Z)) : packet -> option Z := match time_of with Some f => f | None => no_time end.
(* a summary that describes ps: number, earliest and latest time, and their distance *)
Definition describes (time_of : packet -> option Z) (ps : list packet) (s : isummary) : Prop :=
  i_total s = N.of_nat (length ps) /\
  i_first s = min_of (stamps time_of ps) /\ i_last s = max_of (stamps time_of ps) /\
  i_duration s = match min_of (stamps time_of ps), max_of (stamps time_of ps) with
                 | Some f, Some l => (l - f)%Z | _, _ => 0%Z end.
(* the missing packets of all apids *)
Definition missing_sum (m : amap isummary) : N := fold_right N.add 0 (map (fun x => i_missing (snd x)) m).
(* the decoder the command has: for --timecode cds, or none *)
Definition decoder_of (cds : bool) : packet -> option Z := tf (if cds then Some cds_time else None).
