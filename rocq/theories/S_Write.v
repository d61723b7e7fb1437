(* Specification vocabulary for writers that fail *)
From Verif Require Import Base M_Reader M_Main M_Write S_Main.

(* l is the beginning of full *)
Definition beginning (l full : list N) : Prop := exists rest, full = l ++ rest.

(* the first write of a script that does not go through, if any: a write that is interrupted is simply repeated, one
   that accepts fewer bytes is continued, and one that accepts none is an error *)
Inductive first_failure : list wevent -> wfinal -> iokind -> Prop :=
| ff_final : forall c, first_failure [] (Refuses c) (OtherIo c)
| ff_short : forall n es f k, (0 < n)%nat -> first_failure es f k -> first_failure (WAccept n :: es) f k
| ff_again : forall es f k, first_failure es f k -> first_failure (WFail Interrupted :: es) f k
| ff_zero : forall es f, first_failure (WAccept 0 :: es) f WRITE_ZERO
| ff_here : forall es f k, k <> Interrupted -> first_failure (WFail k :: es) f k.

(* a writer that only cuts writes short or interrupts them *)
Definition reliable (es : list wevent) (f : wfinal) : Prop :=
  f = Accepts /\ Forall (fun e => e = WFail Interrupted \/ exists n, (0 < n)%nat /\ e = WAccept n) es.

(* a device with room for n more bytes, which then fails with code c *)
Definition room_evs (n : nat) : list wevent := repeat (WAccept 1) n.

(* What a writer shows of a task that has the bytes [full] to write and, once all are written, ends with [done]:
   it got the beginning of them; all of them with the result of the task, or not all and the first failure of the
   writer. *)
Inductive written_to {R} (w w' : writer) (full : list N) (done : R) (failed : iokind -> R) : R -> Prop :=
| written_all : w_got w' = w_got w ++ full -> written_to w w' full done failed done
| written_part : forall l x rest k, full = l ++ x :: rest -> w_got w' = w_got w ++ l ->
    first_failure (w_evs w) (w_fin w) k -> written_to w w' full done failed (failed k).

(* What a command leaves when its output file [o] is written to by a writer that does as [evs] and [fin] say, and
   [full] is what the output holds if all writes succeed: no other file differs, and the output holds all of [full] and
   the command ends as it would ([x0]), or holds only a beginning of it and the command reports failure. *)
Inductive output_after (fs0 : fsys) (o : N) (full : list N) (x0 : exit) (evs : list wevent) (fin : wfinal)
  : exit -> fsys -> Prop :=
| output_all : forall fs', only_written fs0 o full fs' -> output_after fs0 o full x0 evs fin x0 fs'
| output_part : forall fs' l b rest k, full = l ++ b :: rest -> only_written fs0 o l fs' ->
    first_failure evs fin k -> output_after fs0 o full x0 evs fin Failure fs'.
