(* Specification for C100: an iterator has come to an end *)
From Verif Require Import Base M_Live.

(* the next call of an iterator in state [a] reports an end, after which the iterator is in state [b], or panics *)
Definition stops {S F : Type} (next : pullable S F) (a b : S) : Prop :=
  exists n, next n a = Some (Val (None, b)) \/ next n a = Some Panic /\ b = a.
