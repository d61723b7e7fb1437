(* Specification of the byte source that can be pushed back to, used through any calls *)
From Verif Require Import Base S_Sync M_Reader M_Bytes.
Open Scope nat_scope.

(* the calls, and what they return: fill is given a buffer with some contents and leaves it with others *)
Inductive bcall : Type := Next | Fill (buf : list N) | Push (dat : list N) | Offset.
Inductive banswer : Type :=
| TheByte (b : N) | NextFails (k : iokind)
| Filled (buf : list N) (more : bool) | FillFails (buf : list N) (k : iokind)
| Pushed | IsAt (n : nat).
Definition do_call (c : bcall) (b : bytes) : outcome (banswer * bytes) :=
  match c with
  | Next => let '(r, b) := bytes_next b in Val (match r with inl x => TheByte x | inr k => NextFails k end, b)
  | Fill buf => let '(buf, r, b) := bytes_fill_into buf b in Val (match r with inl more => Filled buf more | inr k => FillFails buf k end, b)
  | Push dat => Val (Pushed, bytes_push dat b)
  | Offset => let* n := bytes_offset b in Val (IsAt n, b)
  end.
Fixpoint do_calls (cs : list bcall) (b : bytes) : outcome (list banswer * bytes) :=
  match cs with
  | [] => Val ([], b)
  | c :: cs => let* '(a, b) := do_call c b in let* '(l, b) := do_calls cs b in Val (a :: l, b)
  end.

(* Reading the bytes bs one after the other, from position [pos] to [pos'], all of them being there *)
Inductive in_sequence (bs : list N) : nat -> list bcall -> list banswer -> nat -> Prop :=
| seq_done : forall pos, in_sequence bs pos [] [] pos
| seq_next : forall pos x cs l pos', nth_error bs pos = Some x -> in_sequence bs (pos + 1) cs l pos' ->
    in_sequence bs pos (Next :: cs) (TheByte x :: l) pos'
| seq_fill : forall pos buf cs l pos', pos + length buf <= length bs -> in_sequence bs (pos + length buf) cs l pos' ->
    in_sequence bs pos (Fill buf :: cs) (Filled (firstn (length buf) (skipn pos bs)) true :: l) pos'
| seq_offset : forall pos cs l pos', in_sequence bs pos cs l pos' -> in_sequence bs pos (Offset :: cs) (IsAt pos :: l) pos'.

(* how many bytes the answers hand over, and how many the calls give back *)
Definition handed (a : banswer) : nat := match a with TheByte _ => 1 | Filled buf true => length buf | _ => 0 end.
Definition given (c : bcall) : nat := match c with Push dat => length dat | _ => 0 end.
Definition total {A} (f : A -> nat) (l : list A) : nat := fold_right Nat.add 0 (map f l).
