(* Specification of the Reed-Solomon stage: which of its steps are those of the source *)
From Verif Require Import Base M_RsPipeline.

(* the actions of the source: it hands over a frame, or ends *)
Definition source_acts (l : label) : Prop := l = LTake \/ l = LEnd.
