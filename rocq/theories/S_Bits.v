(* Specification vocabulary: byte strings as bit strings, most significant bit first. *)
From Verif Require Import Base.
Open Scope N_scope.

Definition bits8 (b : N) : list bool :=
  [N.testbit b 7; N.testbit b 6; N.testbit b 5; N.testbit b 4;
   N.testbit b 3; N.testbit b 2; N.testbit b 1; N.testbit b 0].
Definition bits (bs : list N) : list bool := flat_map bits8 bs.

(* value of a bit string, most significant bit first *)
Definition val (bl : list bool) : N := fold_left (fun a b => 2 * a + (if b : bool then 1 else 0)) bl 0.

(* the unsigned number in the [len] bits starting at bit [start] *)
Definition field (bs : list N) (start len : nat) : N := val (firstn len (skipn start (bits bs))).

(* big endian value of a byte string *)
Definition be (bs : list N) : N := fold_left (fun a b => 256 * a + b) bs 0.
