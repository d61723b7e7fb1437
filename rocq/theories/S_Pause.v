(* Specification: iterators that report an end more than once *)
From Verif Require Import Base M_Reader S_Packet M_Packet M_Group S_Group M_Sync M_Frame M_Live S_Live.
Open Scope nat_scope.

(* The items before the first end, those between the first end and the second, and so on, and how the last sitting ends *)
Inductive sittings {S A : Type} (next : pullable S A) : S -> list (list A) -> reading S -> Prop :=
| sit_last : forall s l h, pulls next s l h -> sittings next s [l] h
| sit_more : forall s l s' ls h, pulls next s l (EndsIn s') -> sittings next s' ls h -> sittings next s (l :: ls) h.

(* too short for a frame header, or of a version other than those of TM and AOS frames, which are 00 and 01 in binary *)
Definition unreadable (c : block) : bool := (length (bl_data c) <? 6) || N.testbit (nth 0 (bl_data c) 0%N) 7.
(* CADUs, cut at the unreadable ones, which count for nothing *)
Fixpoint cut (cadus : list block) : list (list block) :=
  match cadus with
  | [] => [[]]
  | c :: cadus =>
      if unreadable c then [] :: cut cadus else
      match cut cadus with
      | l :: ls => (c :: l) :: ls
      | [] => [[c]]
      end
  end.

(* The groups of a source of packets that pauses, and whether an end is reported: an end of the source while a group is
   open ends that group and goes unreported; the first end at any other point is reported, and what comes after it is lost *)
Inductive paused_groups : list (list packet) -> list pgroup -> bool -> Prop :=
| pg_nothing : paused_groups [] [] false
| pg_goes_on : forall l ls gs gs' b, grouping l gs -> ends_open gs -> paused_groups ls gs' b -> paused_groups (l :: ls) (gs ++ gs') b
| pg_stops : forall l ls gs, grouping l gs -> ~ ends_open gs -> paused_groups (l :: ls) gs true.

(* an iterator whose answer does not depend on how long one is willing to wait for it *)
Definition steady {S A : Type} (next : pullable S A) : Prop := forall n m s x, n <= m -> next n s = Some x -> next m s = Some x.
(* any sequence of items and pauses is the behaviour of some iterator *)
Definition scripted {A} (l : list (option A)) : outcome (option A * list (option A)) :=
  match l with [] => Val (None, []) | x :: l => Val (x, l) end.
Definition script {A} (parts : list (list A)) : list (option A) := concat (map (fun l => map Some l ++ [None]) parts).
