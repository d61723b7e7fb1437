(* Vocabulary: markers that are not (C107) *)
From Verif Require Import Base S_Bits S_Sync.
Open Scope nat_scope.

(* a block with the marker's bytes in it: x, marker, y *)
Definition holding (asm : list N) (b : list N * list N) : list N := fst b ++ asm ++ snd b.
(* What lies between the inner markers: from y of the first to the x of the next, and so on; x_last is the beginning of the last block *)
Fixpoint between (asm : list N) (y : list N) (units : list (list N * list N)) (x_last : list N) : list (list N) :=
  match units with
  | [] => [y ++ asm ++ x_last]
  | (x, y') :: rest => (y ++ asm ++ x) :: between asm y' rest x_last
  end.
