(* Specification of reading on after an end of the stream *)
From Verif Require Import Base S_Packet M_Reader M_Packet.
Open Scope N_scope.

(* [drains next s items s']: calling next from s returns these items, then None, which leaves the iterator in s' *)
Inductive drains {S A : Type} (next : S -> outcome (option A * S)) : S -> list A -> S -> Prop :=
| drains_end : forall s s', next s = Val (None, s') -> drains next s [] s'
| drains_item : forall s s1 a items s', next s = Val (Some a, s1) -> drains next s1 items s' -> drains next s (a :: items) s'.
(* reading to the end several times *)
Fixpoint passes {S A : Type} (next : S -> outcome (option A * S)) (s : S) (results : list (list A)) : Prop :=
  match results with
  | [] => True
  | items :: results => exists s', drains next s items s' /\ passes next s' results
  end.
(* what a reader of a file delivers that grows by these packets whenever its end has been reached *)
Fixpoint grows (parts : list (list wire_packet)) : list token :=
  match parts with
  | [] => []
  | ws :: parts => map TByte (concat (map wire_bytes ws)) ++ TEof :: grows parts
  end.
(* the packets of each part, with their positions in the whole *)
Fixpoint parts_at (off : nat) (parts : list (list wire_packet)) : list (list packet) :=
  match parts with
  | [] => []
  | ws :: parts => packets_at off ws :: parts_at (off + length (concat (map wire_bytes ws))) parts
  end.
