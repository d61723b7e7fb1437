(* Specification of synchronization over the bit string of the stream *)
From Verif Require Import Base S_Bits S_Packet M_Reader M_Sync.
Open Scope nat_scope.

(* what a reader delivers, interrupted reads visible *)
Definition vtokens_of_event (e : event) : list token :=
  match e with
  | EvData [] => [TEof]
  | EvData bs => map TByte bs
  | EvFail k => [TErr k]
  end.
Definition vtranscript (es : list event) : list token := flat_map vtokens_of_event es.
(* the reader delivers exactly the bytes bs, in chunks of any sizes, and then end of file *)
Definition delivers (r : reader) (bs : list N) : Prop :=
  vtranscript (evs r) = map TByte bs /\ fin r = AtEof.

(* the marker's bits occur at bit position p of the bit string B *)
Definition occurs (asm : list N) (B : list bool) (p : nat) : Prop :=
  firstn (8 * length asm) (skipn p B) = bits asm.
(* p is the first occurrence at or after [from] *)
Definition earliest (asm : list N) (B : list bool) (from p : nat) : Prop :=
  from <= p /\ occurs asm B p /\ forall q, from <= q < p -> ~ occurs asm B q.
Definition no_more (asm : list N) (B : list bool) (from : nat) : Prop :=
  forall q, from <= q -> ~ occurs asm B q.

(* location of the data starting at bit d: the byte containing bit d, counted from 1, and the
   number of bits of that byte from bit d on (0 when the data is byte aligned) *)
Definition loc_at (d : nat) : loc := mkLoc (d / 8 + 1) (N.of_nat ((8 - d mod 8) mod 8)).

(* The items of synchronize from bit position [pos] on; [last] is the offset of the previous item's
   location, 0 if there is none. *)
Inductive sync_run (asm : list N) (len : nat) (B : list bool) : nat -> nat -> list (result block) -> Prop :=
| run_end : forall pos last, no_more asm B pos -> sync_run asm len B pos last []
| run_block : forall pos last p d data items,
    earliest asm B pos p -> d = p + 8 * length asm ->
    d + 8 * len <= length B ->
    bytes_ok data -> bits data = firstn (8 * len) (skipn d B) ->
    sync_run asm len B (d + 8 * len) (l_offset (loc_at d)) items ->
    sync_run asm len B pos last
      (Ok (mkBlock (if last =? 0 then 0 else l_offset (loc_at d) - last) (loc_at d) data) :: items)
| run_truncated_aligned : forall pos last p d data,
    earliest asm B pos p -> d = p + 8 * length asm ->
    length B < d + 8 * len -> d mod 8 = 0 ->
    bytes_ok data -> length data = len ->
    bits data = skipn d B ++ repeat false (8 * len - (length B - d)) ->
    sync_run asm len B pos last
      [Ok (mkBlock (if last =? 0 then 0 else l_offset (loc_at d) - last) (loc_at d) data)]
| run_truncated_shifted : forall pos last p d,
    earliest asm B pos p -> d = p + 8 * length asm ->
    length B < d + 8 * len -> d mod 8 <> 0 ->
    sync_run asm len B pos last [Err (Io UnexpectedEof)].

(* the location (byte, counted from 1, and bit) of the bit position d *)
Definition designates (l : loc) (d : nat) : Prop :=
  1 <= l_offset l /\ d = 8 * (l_offset l - 1) + (8 - N.to_nat (l_bit l)) mod 8 /\ (l_bit l < 8)%N.
(* marker and block on the wire *)
Definition cadu_bits (asm : list N) (blk : list N) : list bool := bits asm ++ bits blk.
