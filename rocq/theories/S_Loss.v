(* Specification of a link on which frames get lost or damaged *)
From Verif Require Import Base S_Bits S_Packet S_Pn S_Sync S_FramePackets S_ReedSolomon S_Pipeline M_Packet M_Sync M_ReedSolomon M_Pipeline.
Open Scope nat_scope.

(* what becomes of a unit: it arrives (possibly with errors that can be corrected), it arrives with errors beyond
   correction, or it is not found at all *)
Inductive fate : Type := Arrives | Damaged | Lost.
Definition not_lost (x : fate) : bool := match x with Lost => false | _ => true end.
Definition turned_up (z : sent * fate) : bool := not_lost (snd z).

(* the codec gives up on a codeword, or, when correction is off, sees an error in it *)
Definition beyond_repair (k : codec) (o : rs_opts) (cw : list N) : Prop :=
  exists i, i < ro_interleave o /\
    let w := codeword (ro_interleave o) (repeat 0%N (ro_virtual_fill o) ++ cw) i in
    is_uncorrectable k w \/ (ro_correct o = false /\ has_errors k w = true).

(* a damaged unit; its frame header must be intact, for the receiver uses it nevertheless *)
Definition damaged (k : codec) (p : pipeline) (u : sent) (cw : list N) : Prop :=
  if (s_vcid u =? 63)%N then arrives k p u cw
  else match pl_rs p with
       | None => False
       | Some o => length cw + ro_virtual_fill o = 255 * ro_interleave o /\ beyond_repair k o cw /\
                   firstn 6 cw = firstn 6 (s_frame u)
       end.
Definition reaches (k : codec) (p : pipeline) (z : sent * fate) : Prop :=
  let u := fst z in
  (s_vcid u < 64)%N /\
  (snd z = Lost \/
   exists cw, bytes_ok cw /\ bytes_ok (s_block u) /\ length (s_block u) = pl_block_length p /\
    (if pl_derandomize p then randomized cw (s_block u) else s_block u = cw) /\
    match snd z with Arrives => arrives k p u cw | _ => damaged k p u cw end).

(* the bits on the air: every block behind a marker, and in front of each marker a gap: remains of lost units,
   slipped bits, noise, or nothing *)
Definition air_bits (air : list (list bool * list N)) : list bool :=
  flat_map (fun gb => fst gb ++ bits ASM ++ bits (snd gb)) air.

(* the units of channel v *)
Definition channel (v : N) (us : list (sent * fate)) : list (sent * fate) := filter (fun z => on_channel v (fst z)) us.

(* number of lost frames reported with each frame found: those since the frame found before *)
Fixpoint gaps_of (seen : bool) (n : N) (l : list fate) : list N :=
  match l with
  | [] => []
  | Lost :: l => gaps_of seen (n + 1) l
  | _ :: l => (if seen then n else 0%N) :: gaps_of true 0 l
  end.

(* number of packet bytes in a frame *)
Definition room (izone trailer : nat) (frm : list N) : nat := length frm - (6 + izone + 2 + trailer).
(* the frames carry the bytes a, a+1, ... of a packet stream: is byte y in a frame that arrived? *)
Fixpoint arrived (a : nat) (l : list (nat * fate)) (y : nat) : bool :=
  match l with
  | [] => false
  | (n, x) :: l =>
      if (a <=? y) && (y <? a + n) then match x with Arrives => true | _ => false end
      else arrived (a + n) l y
  end.
Definition sizes (izone trailer : nat) (l : list (sent * fate)) : list (nat * fate) :=
  map (fun z => (room izone trailer (s_frame (fst z)), snd z)) l.
(* are all bytes of the packet among the ones g? *)
Definition whole (g : nat -> bool) (pw : nat * wire_packet) : bool :=
  forallb g (seq (fst pw) (length (wire_bytes (snd pw)))).
