(* Model of ccsds-lib/src/spacepacket/mod.rs: headers, packets, packet decoding *)
From Verif Require Import Base M_Reader.
Open Scope N_scope.

(* spacepacket/mod.rs:197-206 *)
Record header : Type := mkHeader {
  version : N;
  type_flag : N;
  has_secondary_header : bool;
  apid : N;
  sequence_flags : N;
  sequence_id : N;
  len_minus1 : N }.

(* spacepacket/mod.rs:53-61 *)
Record packet : Type := mkPacket {
  p_header : header;
  p_data : list N;
  p_offset : nat }.

(* spacepacket/mod.rs:254-264 *)
Definition HDR_LEN : nat := 6%nat.
Definition SEQ_MAX : N := 16383.
Definition SEQ_FIRST : N := 1.
Definition SEQ_CONTINUATION : N := 0.
Definition SEQ_LAST : N := 2.
Definition SEQ_UNSEGMENTED : N := 3.
(* spacepacket/mod.rs:77 *)
Definition MAX_LEN : nat := N.to_nat 65536.

(* spacepacket/mod.rs:111-129 *)
Definition is_first (p : packet) : bool := sequence_flags (p_header p) =? SEQ_FIRST.
Definition is_last (p : packet) : bool := sequence_flags (p_header p) =? SEQ_LAST.
Definition is_cont (p : packet) : bool := sequence_flags (p_header p) =? SEQ_CONTINUATION.
Definition is_standalone (p : packet) : bool := sequence_flags (p_header p) =? SEQ_UNSEGMENTED.

(* spacepacket/mod.rs:268-288 PrimaryHeader::decode *)
Definition header_decode (buf : list N) : outcome (result header) :=
  if (length buf <? HDR_LEN)%nat then Val (Err (NotEnoughData (length buf) HDR_LEN)) else
  let* b0 := get buf 0 in
  let* b1 := get buf 1 in
  let* b2 := get buf 2 in
  let* b3 := get buf 3 in
  let* b4 := get buf 4 in
  let* b5 := get buf 5 in
  let d1 := be16 b0 b1 in
  let d2 := be16 b2 b3 in
  let d3 := be16 b4 b5 in
  Val (Ok {|
    version := as_u8 (N.land (N.shiftr d1 13) 0x7);
    type_flag := as_u8 (N.land (N.shiftr d1 12) 0x1);
    has_secondary_header := N.land (N.shiftr d1 11) 0x1 =? 1;
    apid := N.land d1 0x7ff;
    sequence_flags := as_u8 (N.land (N.shiftr d2 14) 0x3);
    sequence_id := N.land d2 0x3fff;
    len_minus1 := d3 |}).

(* `PrimaryHeader::LEN + ph.len_minus1 as usize + 1` (mod.rs:146-147, 174-175, 393) *)
Definition total_len (h : header) : nat := (HDR_LEN + (N.to_nat (len_minus1 h) + 1))%nat.

(* spacepacket/mod.rs:138-159 Packet::decode *)
Definition packet_decode (buf : list N) : outcome (result packet) :=
  if (length buf <? HDR_LEN)%nat then Val (Err (NotEnoughData (length buf) HDR_LEN)) else
  let* hd := slice buf 0 HDR_LEN in
  let? ph := header_decode hd in
  let total := total_len ph in
  if (length buf <? total)%nat then Val (Err (NotEnoughData (length buf) total)) else
  let* data := slice buf 0 total in
  Val (Ok {| p_header := ph; p_data := data; p_offset := 0%nat |}).

(* spacepacket/mod.rs:165-187 Packet::read. The 65536 byte buffer is represented by the bytes
   read into it; the assert! of lines 176-179 is the Panic branch. *)
Definition packet_read (r : reader) : outcome (result packet * reader) :=
  let '(hd, st, r1) := read_exact HDR_LEN r in
  match st with
  | Some k => Val (Err (Io k), r1)
  | None =>
      let* hres := header_decode hd in
      match hres with
      | Err e => Val (Err e, r1)
      | Ok ph =>
          let total := total_len ph in
          if (total <=? MAX_LEN)%nat then
            let '(body, st2, r2) := read_exact (total - HDR_LEN) r1 in
            match st2 with
            | Some k => Val (Err (Io k), r2)
            | None => Val (Ok {| p_header := ph; p_data := hd ++ body; p_offset := 0%nat |}, r2)
            end
          else Panic
      end
  end.

(* spacepacket/mod.rs:372-381 PacketDecoder *)
Record pdec : Type := mkPdec { pd_reader : reader; pd_offset : nat }.
Definition pdec_new (r : reader) : pdec := mkPdec r 0.

(* spacepacket/mod.rs:389-405 PacketDecoder::next; also decode_packets, mod.rs:436-441.
   Offsets are unbounded (a usize overflow would need 2^64 bytes of input). *)
Definition pdec_next (s : pdec) : outcome (option (result packet) * pdec) :=
  let* rr := packet_read (pd_reader s) in
  let '(res, r') := rr in
  match res with
  | Ok p =>
      let p' := {| p_header := p_header p; p_data := p_data p; p_offset := pd_offset s |} in
      Val (Some (Ok p'),
           {| pd_reader := r';
              pd_offset := (pd_offset s + (HDR_LEN + N.to_nat (len_minus1 (p_header p)) + 1))%nat |})
  | Err (Io UnexpectedEof) => Val (None, {| pd_reader := r'; pd_offset := pd_offset s |})
  | Err e => Val (Some (Err e), {| pd_reader := r'; pd_offset := pd_offset s |})
  end.

(* spacepacket/mod.rs:357-370 missing_packets (u16 arithmetic) *)
Definition missing_packets (ovf : bool) (cur last : N) : outcome N :=
  let* l1 := add_w ovf 16 last 1 in
  let expected := if SEQ_MAX <? l1 then 0 else l1 in
  if negb (cur =? expected) then
    if cur <? l1 then
      let* s := add_w ovf 16 cur SEQ_MAX in sub_w ovf 16 s last
    else
      let* s := sub_w ovf 16 cur last in sub_w ovf 16 s 1
  else Val 0.

(* Iterator adaptor filter_map(Result::ok) over an iterator of Results: keeps calling next until
   it gets an Ok item or the end. [fuel] bounds the number of inner calls; None = not finished. *)
Fixpoint filter_ok_next {St A : Type} (next : St -> outcome (option (result A) * St))
    (fuel : nat) (s : St) : option (outcome (option A * St)) :=
  match fuel with
  | O => None
  | S fuel =>
      match next s with
      | Panic => Some Panic
      | Val (None, s') => Some (Val (None, s'))
      | Val (Some (Ok a), s') => Some (Val (Some a, s'))
      | Val (Some (Err _), s') => filter_ok_next next fuel s'
      end
  end.
