(* Specification vocabulary for standard output. *)
From Verif Require Import Base.
Open Scope N_scope.

(* [l] is [t] up to its last newline (10), and [last] is the line behind it, which is not ended *)
Definition lines_and_rest (t l last : list N) : Prop :=
  t = l ++ last /\ ~ In 10 last /\ (l = [] \/ exists l', l = l' ++ [10]).
