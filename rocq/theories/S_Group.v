(* Specification of sequence gaps, packet groups and summaries *)
From Verif Require Import Base M_Packet M_Group.
Open Scope N_scope.

(* number of 14-bit sequence ids strictly between last and cur, going up from last modulo 2^14 *)
Definition seq_gap (cur last : N) : N := Z.to_N ((Z.of_N cur - Z.of_N last - 1) mod 16384).
Definition seq (p : packet) : N := sequence_id (p_header p).
Definition apid_of (p : packet) : N := apid (p_header p).
Definition seq_ok (p : packet) : Prop := seq p < 16384.

(* sum of the gaps between neighbours *)
Fixpoint gaps (ps : list packet) : N :=
  match ps with
  | p :: ((q :: _) as rest) => seq_gap (seq q) (seq p) + gaps rest
  | _ => 0
  end.
(* consecutive ids everywhere *)
Definition consecutive (ps : list packet) : Prop :=
  forall i p q, nth_error ps i = Some p -> nth_error ps (S i) = Some q ->
                seq q = (seq p + 1) mod 16384.

(* How collect_groups really groups: a standalone packet at a group start is a group; otherwise a
   group is the longest run of packets of the same apid *)
Inductive grouping : list packet -> list pgroup -> Prop :=
| grouping_nil : grouping [] []
| grouping_standalone : forall p ps gs,
    sequence_flags (p_header p) = 3 ->
    grouping ps gs -> grouping (p :: ps) (mkGroup (apid_of p) [p] :: gs)
| grouping_run : forall p run rest gs,
    sequence_flags (p_header p) <> 3 ->
    Forall (fun q => apid_of q = apid_of p) run ->
    match rest with [] => True | q :: _ => apid_of q <> apid_of p end ->
    grouping rest gs ->
    grouping (p :: run ++ rest) (mkGroup (apid_of p) (p :: run) :: gs).

Definition bytes_of (ps : list packet) : N := fold_right (fun p n => N.of_nat (length (p_data p)) + n) 0 ps.
Definition of_apid (a : N) (ps : list packet) : list packet := filter (fun p => apid_of p =? a) ps.
