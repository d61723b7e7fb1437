(* Vocabulary: the order of time codes as byte strings (C105) *)
From Verif Require Import Base.
Open Scope N_scope.

(* x comes before y in the order of byte strings (memcmp), for strings of one length *)
Inductive bytes_before : list N -> list N -> Prop :=
| before_head : forall a b x y, a < b -> length x = length y -> bytes_before (a :: x) (b :: y)
| before_tail : forall a x y, bytes_before x y -> bytes_before (a :: x) (a :: y).
