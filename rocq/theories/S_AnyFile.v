(* Specification: files with any contents *)
From Verif Require Import Base S_Bits S_Packet M_Packet M_Merge S_Merge M_Main.
Open Scope N_scope.

(* A file holding the packets ws and then a header that announces a packet of more than 65536 bytes, all of which may or
   may not be there *)
Definition too_big (bs : list N) (ws : list wire_packet) : Prop :=
  Forall wire_ok ws /\ Forall (fun w => N.of_nat (length (wire_bytes w)) <= 65536) ws /\
  exists tail, bs = concat (map wire_bytes ws) ++ tail /\ bytes_ok tail /\ (6 <= length tail)%nat /\
    65536 < N.of_nat (wire_len tail).

(* every file consists of bytes *)
Definition disk_ok (fs : fsys) : Prop := forall p bs, aget p fs = Some bs -> bytes_ok bs.
(* the file at p cannot be read without a panic *)
Definition bad_file (fs : fsys) (p : N) : Prop := exists bs ws, aget p fs = Some bs /\ too_big bs ws.
