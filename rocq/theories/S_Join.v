(* Vocabulary: recordings written one after the other (C104) *)
From Verif Require Import Base M_Packet M_Reader M_Group M_Sync M_Frame S_Packet S_Group S_Merge S_Sync S_FramePackets M_Cli.
Open Scope nat_scope.

(* packets that can be in a file *)
Definition filed (ws : list wire_packet) : Prop := Forall wire_ok ws /\ Forall (fun w => N.of_nat (length (wire_bytes w)) <= 65536)%N ws.
(* the same packet, n bytes later in the stream *)
Definition later_packet (n : nat) (p : packet) : packet := mkPacket (p_header p) (p_data p) (n + p_offset p).
Definition later_item (n : nat) (r : result packet) : result packet := match r with Ok p => Ok (later_packet n p) | Err e => Err e end.

(* The last of the groups gs does not take in the first of the packets ps: it is of another apid, or it is a standalone packet *)
Definition apart (gs : list pgroup) (ps : list packet) : Prop :=
  forall init g q rest, gs = init ++ [g] -> ps = q :: rest ->
    g_apid g <> apid_of q \/ exists p, g_packets g = [p] /\ sequence_flags (p_header p) = 3%N.

(* the block, n bytes later in the stream *)
Definition later_block (n : nat) (b : block) : block := mkBlock (bl_last b) (mkLoc (n + l_offset (bl_loc b)) (l_bit (bl_loc b))) (bl_data b).
(* ... the first of them comes after a block at the offset [last] *)
Definition later_blocks (n last : nat) (items : list (result block)) : list (result block) :=
  match map (fun r => match r with Ok b => Ok (later_block n b) | Err e => Err e end) items with
  | Ok b :: rest => Ok (mkBlock (l_offset (bl_loc b) - last) (bl_loc b) (bl_data b)) :: rest
  | l => l
  end.

(* equal but for the number of missing frames *)
Definition same_frame (f g : frame) : Prop := f_header f = f_header g /\ f_integrity f = f_integrity g /\ f_data f = f_data g.
(* one by one the same frames; those after another one of their channel are equal *)
Definition same_frames (fs gs : list frame) : Prop :=
  Forall2 same_frame fs gs /\
  forall k f g, nth_error fs k = Some f -> nth_error gs k = Some g -> In (chan f) (map chan (firstn k fs)) -> f = g.
(* behind the frames fs: in gs, the first frame of every channel seen in fs is marked as coming after a loss, or is not to be used *)
Definition breaks_after (fs gs : list frame) : Prop :=
  forall before g after, gs = before ++ g :: after -> In (chan g) (map chan fs) -> ~ In (chan g) (map chan before) ->
    f_missing g <> 0%N \/ bad_frame g.

(* the packets missing between the last packet of apid x in ws and the first in ws' *)
Definition seam (x : N) (ws ws' : list wire_packet) : N :=
  match rev (filter (fun w => apid (w_header w) =? x)%N ws), filter (fun w => apid (w_header w) =? x)%N ws' with
  | l :: _, f :: _ => seq_gap (sequence_id (w_header f)) (sequence_id (w_header l))
  | _, _ => 0%N
  end.

(* info: the figures of apid x; the numbers of packets added, the earliest and the latest time of both *)
Definition row_at (x : N) (rows : amap isummary) : isummary := match aget x rows with Some s => s | None => mkIsummary 0 0 None None 0 end.
Definition earlier (a b : option Z) : option Z := match a, b with Some x, Some y => Some (Z.min x y) | Some x, None => Some x | None, y => y end.
Definition latest (a b : option Z) : option Z := match a, b with Some x, Some y => Some (Z.max x y) | Some x, None => Some x | None, y => y end.
Definition adds_up (a b c : isummary) : Prop :=
  i_total c = (i_total a + i_total b)%N /\ i_first c = earlier (i_first a) (i_first b) /\ i_last c = latest (i_last a) (i_last b).
