(* CCSDS 131.0-B-5 section 10: the pseudo-random sequence of h(x) = x^8 + x^7 + x^5 + x^3 + 1 started
   from the all-ones state *)
From Verif Require Import Base.

(* w = the next eight bits of the sequence, the next one first *)
Definition lfsr_step (w : list bool) : list bool :=
  match w with
  | [w0; w1; w2; w3; w4; w5; w6; w7] =>
      [w1; w2; w3; w4; w5; w6; w7; xorb (xorb w7 w5) (xorb w3 w0)]
  | _ => w
  end.
Definition lfsr_state (n : nat) : list bool := Nat.iter n lfsr_step (repeat true 8).
(* bit n of the sequence *)
Definition pn (n : nat) : bool := hd false (lfsr_state n).
