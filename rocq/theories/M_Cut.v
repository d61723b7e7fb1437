(* Model of Pipeline::start with Reed-Solomon, as it runs, on any reader, see framing_rs_live in M_FrameLive.v for the framing
   command around it *)
From Verif Require Import Base M_Reader M_Sync M_Frame M_ReedSolomon M_RsPipeline M_Live M_Pipeline M_Pause M_FrameLive.
Open Scope nat_scope.

(* framing/pipeline/builder.rs:38-56 with pl_rs p = Some o: the submit thread of reed_solomon.rs:90-121 pulls from the iterator
   on the reader. The relation holds of every state that can be come to, at any time, under any schedule, as long as the
   caller does not drop the iterator. *)
Inductive start_rs_live (ovf : bool) (k : codec) (nthreads : nat) (p : pipeline) (o : rs_opts) (r : reader) : state (F := frame) -> Prop :=
| start_rs_intro : forall source frames h ls s,
    source = frames_live ovf (pl_derandomize p) ->
    hands source (frames_new r (pl_block_length p)) frames h ->
    exec (rs_job k (rs_of_opts o)) (ro_buffer_size o) nthreads (init frames) ls s -> ~ In LDrop ls ->
    (In LEnd ls -> exists n x, source n h = Some x /\ forall f s', x <> Val (Some f, s')) ->
    start_rs_live ovf k nthreads p o r s.
