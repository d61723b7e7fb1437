(* Specification: inputs that fail or panic while they are read, and what has been done by then *)
From Verif Require Import Base M_Reader S_Packet M_Packet M_Group S_Group M_Merge M_Live.
Open Scope nat_scope.

(* from here on every call reports a read error *)
CoInductive fails_forever {S A : Type} (next : S -> outcome (option (result A) * S)) : S -> Prop :=
| fails_again : forall s s' e, next s = Val (Some (Err e), s') -> fails_forever next s' -> fails_forever next s.

(* How calling next again and again goes: the items, and then the end (and the state after it), a panic, or
   read errors for ever *)
Inductive reading (S : Type) : Type := EndsIn (s : S) | Breaks | Forever.
Arguments EndsIn {S} s.
Arguments Breaks {S}.
Arguments Forever {S}.
Inductive reads {S A : Type} (next : S -> outcome (option (result A) * S)) : S -> list (result A) -> reading S -> Prop :=
| reads_end : forall s s', next s = Val (None, s') -> reads next s [] (EndsIn s')
| reads_panic : forall s, next s = Panic -> reads next s [] Breaks
| reads_fail : forall s, fails_forever next s -> reads next s [] Forever
| reads_item : forall s s' a items h, next s = Val (Some a, s') -> reads next s' items h -> reads next s (a :: items) h.

(* what a program has come to, given enough time *)
Definition eventually {X : Type} (f : nat -> X) (x : X) : Prop := exists n0, forall n, n0 <= n -> f n = x.

(* A group that nothing can be added to. All the groups of a beginning of the input, but not the last one as long as it
   could grow *)
Definition closed (g : pgroup) : Prop := exists p, g_packets g = [p] /\ sequence_flags (p_header p) = 3%N.
Definition closed_groups (ps : list packet) (gs : list pgroup) : Prop :=
  exists all, grouping ps all /\
    ((all = gs /\ forall init g, gs = init ++ [g] -> closed g) \/ (exists g, all = gs ++ [g] /\ ~ closed g)).

(* the items before the first read error *)
Definition before_error (items : list (result packet)) (ps : list packet) : Prop :=
  items = map Ok ps \/ exists e rest, items = map Ok ps ++ Err e :: rest.

(* an input that delivers bytes, whatever else it does *)
Definition of_bytes (r : reader) : Prop := Forall (fun t => match t with TByte b => (b < 256)%N | _ => True end) (transcript (evs r)).

(* the same for an iterator whose next may also never return *)
Inductive pulls {S A : Type} (next : pullable S A) : S -> list A -> reading S -> Prop :=
| pulls_end : forall n s s', next n s = Some (Val (None, s')) -> pulls next s [] (EndsIn s')
| pulls_panic : forall n s, next n s = Some Panic -> pulls next s [] Breaks
| pulls_hang : forall s, (forall n, next n s = None) -> pulls next s [] Forever
| pulls_item : forall n s s' a l h, next n s = Some (Val (Some a, s')) -> pulls next s' l h -> pulls next s (a :: l) h.

Definition status_of {S : Type} (h : reading S) : status := match h with EndsIn _ => Returned | Breaks => Panicking | Forever => Running end.

(* the last group could grow *)
Definition ends_open (gs : list pgroup) : Prop := exists init g, gs = init ++ [g] /\ ~ closed g.
(* How an input reads in groups. An end that is reported while a group is open ends the group, and reading goes on if
   more arrives after it. An end that is reported at any other point is the end. *)
Inductive group_reads : pdec -> list pgroup -> status -> Prop :=
| gr_end : forall s items s' gs, reads pdec_next s items (EndsIn s') -> grouping (keep_ok items) gs -> ~ ends_open gs ->
    group_reads s gs Returned
| gr_on : forall s items s' gs gs' st, reads pdec_next s items (EndsIn s') -> grouping (keep_ok items) gs -> ends_open gs ->
    group_reads s' gs' st -> group_reads s (gs ++ gs') st
| gr_panic : forall s items gs, reads pdec_next s items Breaks -> closed_groups (keep_ok items) gs -> group_reads s gs Panicking
| gr_fail : forall s items gs, reads pdec_next s items Forever -> closed_groups (keep_ok items) gs -> group_reads s gs Running.
