(* Model of the framing command (main.rs:418-483, frame.rs:49-154) and of Pipeline::start as they run, on any reader: reads may
   fail now and then, or from some point on for ever. M_Main.v and M_Pipeline.v model them on files that are read to
   their end. *)
From Verif Require Import Base M_Reader M_Packet M_Sync M_Pn M_Frame M_ReedSolomon M_RsPipeline M_Live M_Pipeline M_Merge M_Cli M_Main M_Pause.
Open Scope nat_scope.

(* framing/pipeline/builder.rs:38-56 Pipeline::start without Reed-Solomon, on any reader: an iterator on the caller's
   thread *)
Definition blocks_live (derandomize : bool) : pullable biter block :=
  let blocks := ok_only (direct biter_next) in if derandomize then derandomized blocks else blocks.
Definition frames_live (ovf derandomize : bool) : pullable (decoding biter) frame := decoding_next ovf (blocks_live derandomize).
Definition frames_new (r : reader) (len : nat) : decoding biter := decoding_new (synchronize r ASM len).

(* frame.rs:94-147 without Reed-Solomon: what the loop has made of its variables and of the output file, one frame at a
   time *)
Definition framing_live (ovf : bool) (len : nat) (p : pipeline) (keep_fill : bool) (include exclude : list N) (has_output : bool)
    (r : reader) (fuel : nat) : fcmd * status :=
  for_each (frames_live ovf (pl_derandomize p)) (fun s f => frame_loop len keep_fill include exclude has_output [f] s) fuel
    (frames_new r (pl_block_length p)) (mkFcmd finfo0 [] []).
(* The same with Reed-Solomon: the loop takes the frames from the stage of M_RsPipeline.v, whose submit thread pulls from
   the iterator above: where that does not return the thread stays there, and where it panics the thread ends (see
   decoded_frames in M_Pipeline.v). Receiving a frame and what the loop does with it count as one step. The relation
   holds of everything the loop can have come to, at any time, under any schedule. *)
Inductive framing_rs_live (ovf : bool) (k : codec) (nthreads len : nat) (p : pipeline) (o : rs_opts) (keep_fill : bool) (include exclude : list N)
    (has_output : bool) (r : reader) : state (F := frame) -> fcmd -> status -> Prop :=
| framing_rs_intro : forall source frames h ls s c,
    source = frames_live ovf (pl_derandomize p) ->
    hands source (frames_new r (pl_block_length p)) frames h ->
    exec (rs_job k (rs_of_opts o)) (ro_buffer_size o) nthreads (init frames) ls s -> ~ In LDrop ls ->
    (In LEnd ls -> exists n x, source n h = Some x /\ forall f s', x <> Val (Some f, s')) ->
    frame_loop len keep_fill include exclude has_output (st_recv s) (mkFcmd finfo0 [] []) = Val c ->
    framing_rs_live ovf k nthreads len p o keep_fill include exclude has_output r s c
      (if st_aborted s then Panicking else match st_consumer s with CEnded => Returned | _ => Running end).

(* main.rs:418-483 and frame.rs:49-154 without Reed-Solomon, for any input that is not the output; None = the input cannot be
   opened. How the command stands after so many steps, what is in the output file (None = not touched, or none given) and the
   summary that was printed. *)
Definition framing_command_live (ovf : bool) (creatable : N -> bool) (input : option reader) (a : framing_args) (fuel : nat)
  : progress * option (list N) * option (finfo * amap finfo) :=
  match framing_setup a, input with
  | Some (len, p, i, e), Some r =>
      let created := match fr_output a with Some o => creatable o | None => true end in
      if negb created then (Exited Failure, None, None) else
      let '(c, st) := framing_live ovf len p (fr_keep_fill a) i e (negb (is_none (fr_output a))) r fuel in
      let out := match fr_output a with Some _ => Some (fc_out c) | None => None end in
      match st with
      | Returned => (Exited Success, out, Some (fc_all c, apid_sort (fc_vcids c)))
      | Panicking => (Aborted, out, None)
      | Running => (Going, out, None)
      end
  | _, _ => (Exited Failure, None, None)
  end.

(* The input as the command reads it when it is a file: it is opened first (main.rs:445), without Reed-Solomon nothing reads
   from it before the output is created (frame.rs:88-92), which empties that file if it exists. *)
Definition input_after_create (fs : fsys) (a : framing_args) : option reader :=
  option_map reader_of (aget (fr_input a) (match fr_output a with Some o => aset o [] fs | None => fs end)).
