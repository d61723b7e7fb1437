(* Specification of packet extraction from the frames of one virtual channel *)
From Verif Require Import Base S_Bits S_Packet M_Packet M_Frame.
Open Scope nat_scope.

(* The part of a frame that carries packet data: after the 6 byte header, the insert zone and the two
   byte M_PDU header, before the trailer; and the first header pointer *)
Definition zone_of (izone trailer : nat) (f : frame) : list N :=
  skipn (6 + izone) (firstn (length (f_data f) - trailer) (f_data f)).
Definition payload_of (izone trailer : nat) (f : frame) : list N := skipn 2 (zone_of izone trailer f).
Definition pointer_of (izone trailer : nat) (f : frame) : nat := N.to_nat (field (zone_of izone trailer f) 5 11).
Definition long_enough (izone trailer : nat) (f : frame) : Prop :=
  6 + izone + 2 + trailer <= length (f_data f).

(* frames whose contents are not to be trusted *)
Definition bad_frame (f : frame) : Prop :=
  f_integrity f = Some IUncorrectable \/ f_integrity f = Some INotCorrected.
Definition bad_frame_b (f : frame) : bool :=
  match f_integrity f with Some IUncorrectable | Some INotCorrected => true | _ => false end.

(* the first header pointer of the frame points to a packet start inside it *)
Definition has_start (izone trailer : nat) (f : frame) : bool :=
  negb (pointer_of izone trailer f =? 2047) && negb (pointer_of izone trailer f =? 2046)
  && (pointer_of izone trailer f <=? length (payload_of izone trailer f)).

(* a telemetry packet header of version 0 *)
Definition tm_header (buf : list N) : Prop :=
  version (spec_header buf) = 0%N /\ type_flag (spec_header buf) = 0%N.

(* Cutting packets off the front of a buffer: the packets, and what is left: [Some rest] if rest may
   become a packet when more data arrives, [None] if the buffer turned out not to start with a
   telemetry packet header *)
Inductive carve : list N -> list packet -> option (list N) -> Prop :=
| carve_short : forall b, length b < 6 -> carve b [] (Some b)
| carve_invalid : forall b, 6 <= length b -> ~ tm_header b -> carve b [] None
| carve_wait : forall b, 6 <= length b -> tm_header b -> length b < wire_len b -> carve b [] (Some b)
| carve_packet : forall b ps rest, 6 <= length b -> tm_header b -> wire_len b <= length b ->
    carve (skipn (wire_len b) b) ps rest ->
    carve b (mkPacket (spec_header b) (firstn (wire_len b) b) 0 :: ps) rest.

(* One frame of a virtual channel: st is the data of the incomplete packet at hand, None without
   synchronization *)
Inductive vc_step (izone trailer : nat) : option (list N) -> frame -> list packet -> option (list N) -> Prop :=
| vc_bad : forall st f, bad_frame f -> vc_step izone trailer st f [] None
| vc_continue : forall c f ps st', ~ bad_frame f -> f_missing f = 0%N ->
    carve (c ++ payload_of izone trailer f) ps st' -> vc_step izone trailer (Some c) f ps st'
| vc_start : forall st f ps st', ~ bad_frame f -> (st = None \/ f_missing f <> 0%N) ->
    has_start izone trailer f = true ->
    carve (skipn (pointer_of izone trailer f) (payload_of izone trailer f)) ps st' ->
    vc_step izone trailer st f ps st'
| vc_skip : forall st f, ~ bad_frame f -> (st = None \/ f_missing f <> 0%N) ->
    has_start izone trailer f = false -> vc_step izone trailer st f [] None.

(* a sequence of frames of one virtual channel *)
Inductive vc_run (izone trailer : nat) : option (list N) -> list frame -> list packet -> option (list N) -> Prop :=
| vc_nil : forall st, vc_run izone trailer st [] [] st
| vc_cons : forall st f fs ps st' qs st'', vc_step izone trailer st f ps st' ->
    vc_run izone trailer st' fs qs st'' -> vc_run izone trailer st (f :: fs) (ps ++ qs) st''.

(* ---- packets laid out in a byte stream and cut into frames ---- *)
Definition stream (ws : list wire_packet) : list N := concat (map wire_bytes ws).
(* every packet with the position of its first byte *)
Fixpoint with_pos (pos : nat) (ws : list wire_packet) : list (nat * wire_packet) :=
  match ws with
  | [] => []
  | w :: ws => (pos, w) :: with_pos (pos + length (wire_bytes w)) ws
  end.
Definition starts_at (ws : list wire_packet) (x : nat) : Prop := exists w, In (x, w) (with_pos 0 ws).
(* the first header pointer for a payload holding the bytes a .. a+n-1 of the stream *)
Definition pointer_correct (ws : list wire_packet) (a n ptr : nat) : Prop :=
  (exists x, starts_at ws x /\ a <= x < a + n /\ (forall y, starts_at ws y -> a <= y -> x <= y) /\ ptr = x - a)
  \/ ((forall y, starts_at ws y -> y < a \/ a + n <= y) /\ ptr = 2047).
(* [fs] carry the bytes a .. e-1 of the stream of [ws]; a payload has at most 2046 bytes, because the
   pointer values 2046 and 2047 are not positions *)
Inductive carries (izone trailer : nat) (ws : list wire_packet) : nat -> list frame -> nat -> Prop :=
| carries_nil : forall a, carries izone trailer ws a [] a
| carries_cons : forall a n f fs e,
    bytes_ok (f_data f) -> long_enough izone trailer f -> ~ bad_frame f ->
    a + n <= length (stream ws) -> n <= 2046 ->
    payload_of izone trailer f = firstn n (skipn a (stream ws)) ->
    pointer_correct ws a n (pointer_of izone trailer f) ->
    carries izone trailer ws (a + n) fs e ->
    carries izone trailer ws a (f :: fs) e.
Definition telemetry (w : wire_packet) : Prop := version (w_header w) = 0%N /\ type_flag (w_header w) = 0%N.

(* a well formed packet of the output *)
Definition proper (p : packet) : Prop :=
  6 <= length (p_data p) /\ p_header p = spec_header (p_data p) /\ length (p_data p) = wire_len (p_data p) /\
  tm_header (p_data p).

(* the virtual channel of a frame *)
Definition chan (f : frame) : N := v_vcid (f_header f).
Definition is_chan (v : N) (f : frame) : bool := (chan f =? v)%N.
Definition frames_ok (izone trailer : nat) (fs : list frame) : Prop :=
  Forall (fun f => bytes_ok (f_data f) /\ long_enough izone trailer f) fs.

(* the packet in the output for a packet on the wire *)
Definition pk (w : wire_packet) : packet := mkPacket (w_header w) (wire_bytes w) 0.
(* first byte at or after a, last byte before e *)
Definition between (a e : nat) (pw : nat * wire_packet) : bool :=
  (a <=? fst pw) && (fst pw + length (wire_bytes (snd pw)) <=? e).

(* frames f0, rest in a row with no loss and no uncorrected error, f0 pointing at a packet; and the
   payload data from that packet on *)
Definition linked (izone trailer : nat) (f0 : frame) (rest : list frame) : Prop :=
  Forall (fun f => ~ bad_frame f) (f0 :: rest) /\ Forall (fun f => f_missing f = 0%N) rest /\
  has_start izone trailer f0 = true.
Definition zone_from (izone trailer : nat) (f0 : frame) (rest : list frame) : list N :=
  skipn (pointer_of izone trailer f0) (payload_of izone trailer f0) ++ concat (map (payload_of izone trailer) rest).
