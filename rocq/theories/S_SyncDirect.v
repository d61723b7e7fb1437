(* Specification of the two calls of a Synchronizer, scan() and block(), made in any order *)
From Verif Require Import Base S_Bits S_Packet M_Reader M_Sync S_Sync.
Open Scope nat_scope.

Inductive call : Type := CallScan | CallBlock.
Inductive answer : Type :=
| AFound (l : loc) | ANone | AScanErr (k : iokind)
| ABlock (data : list N) | ABlockErr (e : error).

(* when the stream has been used up: no marker any more; a block is made up of padding, or refused *)
Definition used_up (len : nat) (c : call) (a : answer) : Prop :=
  match c with
  | CallScan => a = ANone
  | CallBlock => a = ABlockErr (Io UnexpectedEof) \/ exists data, a = ABlock data /\ length data = len
  end.

(* the answers from bit position [pos] of the bit string B on *)
Inductive direct (asm : list N) (len : nat) (B : list bool) : nat -> list call -> list answer -> Prop :=
| direct_nil : forall pos, direct asm len B pos [] []
| direct_found : forall pos p d cs l,
    earliest asm B pos p -> d = p + 8 * length asm -> direct asm len B d cs l ->
    direct asm len B pos (CallScan :: cs) (AFound (loc_at d) :: l)
| direct_none : forall pos cs l, no_more asm B pos -> Forall2 (used_up len) cs l ->
    direct asm len B pos (CallScan :: cs) (ANone :: l)
| direct_block : forall pos data cs l,
    pos + 8 * len <= length B -> bytes_ok data -> bits data = firstn (8 * len) (skipn pos B) ->
    direct asm len B (pos + 8 * len) cs l ->
    direct asm len B pos (CallBlock :: cs) (ABlock data :: l)
| direct_short_aligned : forall pos data cs l,
    length B < pos + 8 * len -> pos mod 8 = 0 -> bytes_ok data -> length data = len ->
    bits data = skipn pos B ++ repeat false (8 * len - (length B - pos)) ->
    Forall2 (used_up len) cs l ->
    direct asm len B pos (CallBlock :: cs) (ABlock data :: l)
| direct_short_shifted : forall pos cs l,
    length B < pos + 8 * len -> pos mod 8 <> 0 -> Forall2 (used_up len) cs l ->
    direct asm len B pos (CallBlock :: cs) (ABlockErr (Io UnexpectedEof) :: l).

(* how often the marker was found at the alignment with index i *)
Definition found_at (i : nat) (a : answer) : bool :=
  match a with AFound l => (l_bit l =? N.of_nat ((8 - i) mod 8))%N | _ => false end.
Definition times_found (i : nat) (l : list answer) : nat := length (filter (found_at i) l).
(* the caller's sequence of calls *)
Definition one_call (c : call) (s : syncer) : outcome (answer * syncer) :=
  match c with
  | CallScan =>
      let* '(r, s) := scan s in
      match r with
      | SFound l => Val (AFound l, s)
      | SNone => Val (ANone, s)
      | SErr k => Val (AScanErr k, s)
      | SOutOfFuel => Panic
      end
  | CallBlock =>
      let* '(r, s) := sync_block s in
      match r with Ok data => Val (ABlock data, s) | Err e => Val (ABlockErr e, s) end
  end.
Fixpoint run_calls (cs : list call) (s : syncer) : outcome (list answer * syncer) :=
  match cs with
  | [] => Val ([], s)
  | c :: cs =>
      let* '(a, s) := one_call c s in
      let* '(l, s) := run_calls cs s in Val (a :: l, s)
  end.
Fixpoint run_calls_hits (ovf : bool) (cs : list call) (s : syncer) (h : hits) : outcome (list answer * syncer * hits) :=
  match cs with
  | [] => Val ([], s, h)
  | c :: cs =>
      let* '(a, s, h) :=
        match c with
        | CallScan =>
            let* '(r, s, h) := scan_hits ovf s h in
            match r with
            | SFound l => Val (AFound l, s, h)
            | SNone => Val (ANone, s, h)
            | SErr k => Val (AScanErr k, s, h)
            | SOutOfFuel => Panic
            end
        | CallBlock =>
            let* '(r, s) := sync_block s in
            match r with Ok data => Val (ABlock data, s, h) | Err e => Val (ABlockErr e, s, h) end
        end in
      let* '(l, s, h) := run_calls_hits ovf cs s h in Val (a :: l, s, h)
  end.
