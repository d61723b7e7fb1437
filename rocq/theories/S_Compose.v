(* Vocabulary for running the tools on each other's outputs (C94) *)
From Verif Require Import Base M_Packet M_Group S_Packet S_Group M_Merge S_Merge S_Cli M_Main S_Main.
Open Scope N_scope.

(* the filter command can do its work *)
Definition ready (creatable : N -> bool) (fs : fsys) (a : filter_args) : Prop :=
  may_write fs (fa_clobber a) (fa_output a) /\ creatable (fa_output a) = true /\ fa_input a <> fa_output a.
(* it has time options, or not *)
Definition timed (a : filter_args) : Prop := fa_before a <> None \/ fa_after a <> None.
Definition untimed (a : filter_args) : Prop := fa_before a = None /\ fa_after a = None.
(* the numbers of its apid options *)
Definition numbers (a : filter_args) (include exclude : list N) : Prop :=
  stands_for (fa_include a) include /\ stands_for (fa_exclude a) exclude.
(* they count for something *)
Definition some_apid (include exclude : list N) : Prop := exists v, In v (include ++ exclude) /\ v < 65536.
(* run a, then b on what a wrote *)
Definition piped (creatable : N -> bool) (fs : fsys) (a b : filter_args) (outa outb : list N) : Prop :=
  exists fs1 fs2, filter_command creatable fs a = Val (Success, fs1) /\ filter_command creatable fs1 b = Val (Success, fs2) /\
    only_written fs (fa_output a) outa fs1 /\ only_written fs1 (fa_output b) outb fs2.

(* merging the files [paths] with the settings of m *)
Definition on_paths (m : merger) (paths : list N) : merger :=
  mkMerger paths (mg_time m) (mg_order m) (mg_from m) (mg_to m) (mg_apids m).
(* the time decoder looks at the packet only, not at where in the file it was *)
Definition place_free (time_of : packet -> option Z) : Prop :=
  forall h d o o', time_of (mkPacket h d o) = time_of (mkPacket h d o').
(* no two of the groups to be merged have the same time and apid order value, unless they are equal *)
Definition no_ties (m : merger) (ws : N -> list wire_packet) : Prop :=
  forall g g' t a s a' s', eligible m ws g -> eligible m ws g' -> gkey m g = Some (t, a, s) -> gkey m g' = Some (t, a', s') ->
    order_of m a = order_of m a' -> a = a' /\ s = s' /\ group_bytes g = group_bytes g'.
