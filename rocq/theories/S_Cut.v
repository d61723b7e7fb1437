(* Specification: recordings that stop in the middle of a unit, and links that fail *)
From Verif Require Import Base S_Bits S_Packet S_Pn S_Sync S_FramePackets S_ReedSolomon S_Pipeline S_Loss M_Reader M_Packet M_Sync M_Frame M_FramePackets M_ReedSolomon M_Pipeline.
Open Scope nat_scope.

(* a link as in C75: the units sent, with what becomes of them; the frames of channel v carry the bytes a v .. e v - 1 of the
   packets ws v, with counters from c v on *)
Definition link (izone trailer : nat) (k : codec) (p : pipeline) (ws : N -> list wire_packet) (us : list (sent * fate)) (c : N -> N) (a e : N -> nat) : Prop :=
  (forall v, Forall wire_ok (ws v)) /\ (forall v, Forall telemetry (ws v)) /\
  match pl_rs p with None => True | Some o => 1 <= ro_interleave o /\ ro_virtual_fill o <= 223 * ro_interleave o end /\
  6 + izone + 2 + trailer <= pl_block_length p /\
  Forall (reaches k p) us /\
  Forall (fun z => s_vcid (fst z) <> 63%N -> 8 + izone + trailer < length (s_frame (fst z))) us /\
  (forall v, (v < 63)%N -> sends izone trailer v (ws v) (c v) (a v) (map s_frame (map fst (channel v us))) (e v)).
(* the blocks of the units found, behind markers, with gaps without a marker in front of the markers; and then [part] *)
Definition heard (us : list (sent * fate)) (B part : list bool) : Prop :=
  exists air, B = air_bits air ++ part /\ map snd air = map s_block (map fst (filter turned_up us)) /\
    Forall (fun gb => no_more ASM (fst gb) 0) air.
(* no marker, or a marker with less than a block behind it: all that can be left of a stream of units when it is cut *)
Definition unfinished (len : nat) (part : list bool) : Prop :=
  no_more ASM part 0 \/ exists gap rest, part = gap ++ bits ASM ++ rest /\ no_more ASM gap 0 /\ length rest < 8 * len.

(* What a receiver is to get of the units us: the frames [out], and the packets cs, one list for each frame. The frames are
   those of the units found, the damaged ones are flagged, the numbers of units lost are right, and the packets of each
   channel are those all bytes of which travelled in frames that arrived. *)
Definition received (izone trailer : nat) (ws : N -> list wire_packet) (us : list (sent * fate)) (a : N -> nat) (out : list frame) (cs : list (list packet)) : Prop :=
  map (fun f => v_vcid (f_header f)) out = map (fun z => s_vcid (fst z)) (filter turned_up us) /\
  Forall2 (fun z f => bad_frame f <-> snd z = Damaged /\ s_vcid (fst z) <> 63%N) (filter turned_up us) out /\
  (forall v, (v < 63)%N -> map f_missing (filter (is_chan v) out) = gaps_of false 0 (map snd (channel v us))) /\
  length cs = length out /\
  forall v, (v < 63)%N ->
    concat (map snd (filter (fun fc => is_chan v (fst fc)) (combine out cs))) =
    map pk (map snd (filter (whole (arrived (a v) (sizes izone trailer (channel v us)))) (with_pos 0 (ws v)))).
