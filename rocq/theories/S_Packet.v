(* Specification vocabulary for space packets (CCSDS 133.0-B) and byte streams *)
From Verif Require Import Base S_Bits M_Reader M_Packet.
Open Scope N_scope.

(* The primary header in the first six bytes of [buf], field by field *)
Definition spec_header (buf : list N) : header := {|
  version := field buf 0 3;
  type_flag := field buf 3 1;
  has_secondary_header := field buf 4 1 =? 1;
  apid := field buf 5 11;
  sequence_flags := field buf 16 2;
  sequence_id := field buf 18 14;
  len_minus1 := field buf 32 16 |}.

(* Field ranges *)
Definition header_ok (h : header) : Prop :=
  version h < 8 /\ type_flag h < 2 /\ apid h < 2048 /\ sequence_flags h < 4 /\
  sequence_id h < 16384 /\ len_minus1 h < 65536.

(* The six byte encoding of a header *)
Definition encode_header (h : header) : list N :=
  let w1 := version h * 8192 + type_flag h * 4096
            + (if has_secondary_header h then 2048 else 0) + apid h in
  let w2 := sequence_flags h * 16384 + sequence_id h in
  [w1 / 256; w1 mod 256; w2 / 256; w2 mod 256; len_minus1 h / 256; len_minus1 h mod 256].

(* A packet on the wire: a legal header and len_minus1 + 1 bytes of data *)
Record wire_packet : Type := mkWire { w_header : header; w_body : list N }.
Definition wire_ok (w : wire_packet) : Prop :=
  header_ok (w_header w) /\ bytes_ok (w_body w)
  /\ N.of_nat (length (w_body w)) = len_minus1 (w_header w) + 1.
Definition wire_bytes (w : wire_packet) : list N := encode_header (w_header w) ++ w_body w.

(* The number of bytes the packet starting with [bs] needs, when its header is there *)
Definition wire_len (bs : list N) : nat := (7 + N.to_nat (field bs 32 16))%nat.
(* [bs] does not hold a complete packet *)
Definition incomplete (bs : list N) : Prop := (length bs < 6 \/ length bs < wire_len bs)%nat.

(* What a reader delivers, one token at a time, whatever the sizes of the reads and not showing
   interrupted reads (which read_exact retries) *)
Inductive token : Type :=
| TByte (b : N)
| TErr (k : iokind)          (* a failing read *)
| TEof.                      (* a read returning 0 bytes, with more to follow *)
Definition tokens_of_event (e : event) : list token :=
  match e with
  | EvData [] => [TEof]
  | EvData bs => map TByte bs
  | EvFail Interrupted => []
  | EvFail k => [TErr k]
  end.
Definition transcript (es : list event) : list token := flat_map tokens_of_event es.
Definition same_transcript (r1 r2 : reader) : Prop :=
  transcript (evs r1) = transcript (evs r2) /\ fin r1 = fin r2.

(* the packets as they are to be returned, with their positions in a stream, the first at [off] *)
Fixpoint packets_at (off : nat) (ws : list wire_packet) : list packet :=
  match ws with
  | [] => []
  | w :: ws => mkPacket (w_header w) (wire_bytes w) off :: packets_at (off + length (wire_bytes w)) ws
  end.
(* a list and a beginning of it *)
Definition starts_with {A} (l beginning : list A) : Prop := exists rest, l = beginning ++ rest.
