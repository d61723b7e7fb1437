(* Specification: file systems with links *)
From Verif Require Import Base M_Packet S_Packet M_Merge S_Merge M_Cli S_Cli M_Main S_Main M_Links.
Open Scope N_scope.

(* two paths for one file *)
Definition same_file (d : disk) (p q : N) : Prop := d_place d p = d_place d q.
(* Only the file at p was written: through whatever path it is read, it holds c; all other files are as before, and the
   paths lead where they led. *)
Definition only_file_written (d : disk) (p : N) (c : list N) (d' : disk) : Prop :=
  (forall q, same_file d p q -> contents d' q = Some c) /\ (forall q, ~ same_file d p q -> contents d' q = contents d q) /\
  (forall q, d_place d' q = d_place d q).
(* the output does not exist, or --clobber was given *)
Definition may_put (d : disk) (clobber : bool) (output : N) : Prop := clobber = true \/ contents d output = None.
(* the same files, whatever the paths, in any order and as often as one likes *)
Definition same_files (d : disk) (ps qs : list N) : Prop :=
  (forall p, In p ps -> exists q, In q qs /\ same_file d p q) /\ (forall q, In q qs -> exists p, In p ps /\ same_file d p q).
