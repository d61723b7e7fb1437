(* Specification: what a stream that fails for ever, instead of ending, gives *)
From Verif Require Import Base S_Bits S_Packet M_Reader M_Sync S_Sync.
Open Scope nat_scope.

(* The CADUs that lie completely within the bit string B, from bit position [pos] on, as in sync_run of S_Sync.v; [last] is
   the offset of the previous location, 0 if there is none *)
Inductive whole_blocks (asm : list N) (len : nat) (B : list bool) : nat -> nat -> list block -> Prop :=
| whole_end : forall pos last, no_more asm B pos -> whole_blocks asm len B pos last []
| whole_short : forall pos last p, earliest asm B pos p -> length B < p + 8 * length asm + 8 * len -> whole_blocks asm len B pos last []
| whole_block : forall pos last p d data blocks,
    earliest asm B pos p -> d = p + 8 * length asm ->
    d + 8 * len <= length B ->
    bytes_ok data -> bits data = firstn (8 * len) (skipn d B) ->
    whole_blocks asm len B (d + 8 * len) (l_offset (loc_at d)) blocks ->
    whole_blocks asm len B pos last
      (mkBlock (if last =? 0 then 0 else l_offset (loc_at d) - last) (loc_at d) data :: blocks).
