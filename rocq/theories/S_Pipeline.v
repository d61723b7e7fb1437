(* Specification of the sending side of a link and of what the channel may do to it *)
From Verif Require Import Base S_Bits S_Packet S_Pn S_Sync S_FramePackets S_ReedSolomon M_Packet M_ReedSolomon M_Pipeline.
Open Scope nat_scope.

(* ---- transfer frames of version 1 (AOS) ---- *)
Definition aos_header (scid v counter signalling : N) : list N :=
  let w := (2 ^ 14 + scid * 2 ^ 6 + v)%N in
  [w / 256; w mod 256; counter / 65536; (counter / 256) mod 256; counter mod 256; signalling]%N.
(* header, insert zone, M_PDU header (5 spare bits, 11 bits first header pointer), packet data, trailer *)
Definition aos_frame (scid v counter signalling : N) (iz : list N) (spare : N) (ptr : nat) (payload tr : list N) : list N :=
  aos_header scid v counter signalling ++ iz ++
  [spare * 8 + N.of_nat ptr / 256; N.of_nat ptr mod 256]%N ++ payload ++ tr.

(* [sends v ws c a frames e]: [frames] are consecutive frames of channel v with counters c, c+1, ...
   (no roll-over), carrying the bytes a .. e-1 of the packets ws laid end to end *)
Inductive sends (izone trailer : nat) (v : N) (ws : list wire_packet) : N -> nat -> list (list N) -> nat -> Prop :=
| sends_nil : forall c a, sends izone trailer v ws c a [] a
| sends_cons : forall c a n scid sg iz spare ptr tr rest e,
    (c < 2 ^ 24)%N -> (scid < 256)%N -> (sg < 256)%N -> (spare < 32)%N ->
    bytes_ok iz -> length iz = izone -> bytes_ok tr -> length tr = trailer ->
    a + n <= length (stream ws) -> n <= 2046 -> pointer_correct ws a n ptr ->
    sends izone trailer v ws (c + 1)%N (a + n) rest e ->
    sends izone trailer v ws c a
      (aos_frame scid v c sg iz spare ptr (firstn n (skipn a (stream ws))) tr :: rest) e.

(* ---- channel coding ---- *)
(* bit by bit sum with the CCSDS pseudo-random sequence *)
Definition randomized (data blk : list N) : Prop :=
  bytes_ok blk /\ length blk = length data /\
  forall n, n < 8 * length data -> nth n (bits blk) false = xorb (nth n (bits data) false) (pn n).

(* the codec recovers the sent codewords of [sent] from those of [received] *)
Definition recovers (k : codec) (o : rs_opts) (received sent : list N) : Prop :=
  forall i, i < ro_interleave o ->
    let fill := repeat 0%N (ro_virtual_fill o) in
    let w := codeword (ro_interleave o) (fill ++ received) i in
    (ro_correct o = false -> has_errors k w = false) /\
    exists st m, correct_message k w = (st, Some m) /\ st <> RsUncorrectable /\ 223 <= length m <= 255 /\
      firstn 223 m = firstn 223 (codeword (ro_interleave o) (fill ++ sent) i).

(* one unit on the link: its virtual channel, the transfer frame, and the block that arrives *)
Record sent : Type := mkSent { s_vcid : N; s_frame : list N; s_block : list N }.

(* the block before derandomization *)
Definition arrives (k : codec) (p : pipeline) (u : sent) (cw : list N) : Prop :=
  if (s_vcid u =? 63)%N then
    (* fill: not looked at, except for the header *)
    exists scid c sg rest, (scid < 256)%N /\ (c < 2 ^ 24)%N /\ (sg < 256)%N /\ cw = aos_header scid 63 c sg ++ rest
  else
    match pl_rs p with
    | None => cw = s_frame u
    | Some o =>
        exists check, length check = 32 * ro_interleave o /\
          length cw = length (s_frame u ++ check) /\
          length cw + ro_virtual_fill o = 255 * ro_interleave o /\
          recovers k o cw (s_frame u ++ check) /\
          (* the frame header must arrive intact: it is not decoded again after the correction *)
          firstn 6 cw = firstn 6 (s_frame u)
    end.
Definition transmitted (k : codec) (p : pipeline) (u : sent) : Prop :=
  (s_vcid u < 64)%N /\
  exists cw, bytes_ok cw /\ bytes_ok (s_block u) /\ length (s_block u) = pl_block_length p /\
    (if pl_derandomize p then randomized cw (s_block u) else s_block u = cw) /\
    arrives k p u cw.

Definition on_channel (v : N) (u : sent) : bool := (s_vcid u =? v)%N.
