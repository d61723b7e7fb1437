(* Vocabulary: recordings with damaged bytes (C106) *)
From Verif Require Import Base S_Bits M_Packet S_Packet S_FramePackets.
Open Scope nat_scope.

(* where the packet number k of ws begins in a recording of ws; for k = length ws, where what is behind the packets begins *)
Definition start (ws : list wire_packet) (k : nat) : nat := length (stream (firstn k ws)).
(* the byte at i is the same in both *)
Definition kept_at (bs bs' : list N) (i : nat) : Prop := nth_error bs' i = nth_error bs i.
(* The two bytes of each header that say how long the packet is *)
Definition lengths_kept (ws : list wire_packet) (bs bs' : list N) : Prop :=
  forall k, k <= length ws -> kept_at bs bs' (start ws k + 4) /\ kept_at bs bs' (start ws k + 5).
(* the bytes where the packet w, number k of ws, was recorded *)
Definition place (ws : list wire_packet) (k : nat) (w : wire_packet) (bs : list N) : list N :=
  firstn (length (wire_bytes w)) (skipn (start ws k) bs).
(* the bytes b with l as the value of the length field *)
Definition set_length (l : N) (b : list N) : list N := firstn 4 b ++ [(l / 256)%N; (l mod 256)%N] ++ skipn 6 b.
(* no byte of a header is damaged *)
Definition headers_kept (ws : list wire_packet) (bs bs' : list N) : Prop := forall k, k <= length ws -> forall i, i < 6 -> kept_at bs bs' (start ws k + i).
(* the packets with the numbers idx *)
Definition picked (ws : list wire_packet) (idx : list nat) : list wire_packet :=
  flat_map (fun k => match nth_error ws k with Some w => [w] | None => [] end) idx.
