(* Specification: the epoch of CCSDS time codes, in nanoseconds since 1900-01-01 *)
From Verif Require Import Base.

(* 1958-01-01 is 21184 days after 1900-01-01 *)
Definition epoch1958 : Z := (21184 * 86400 * 1000000000)%Z.
Definition ns_per_day : Z := (86400 * 1000000000)%Z.
(* [value_floor k m e]: the integer part of k * m * 2^e *)
Definition value_floor (k m : N) (e : Z) : Z :=
  if (0 <=? e)%Z then (Z.of_N (k * m) * 2 ^ e)%Z else (Z.of_N (k * m) / 2 ^ (- e))%Z.
