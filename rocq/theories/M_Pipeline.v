(* Model of ccsds-lib/src/framing/pipeline/builder.rs *)
From Verif Require Import Base M_Reader M_Packet M_Bytes M_Sync M_Pn M_Frame M_ReedSolomon M_RsPipeline.

(* builder.rs:8-13, 20-44 *)
Record pipeline : Type := mkPipeline {
  pl_derandomize : bool;
  pl_rs : option rs_opts;
  pl_block_length : nat }.
Definition pipeline_new (cadu_length : nat) : pipeline := mkPipeline true None cadu_length.
Definition pipeline_without_derandomization (p : pipeline) : pipeline :=
  mkPipeline false (pl_rs p) (pl_block_length p).
Definition pipeline_with_rs (p : pipeline) (o : rs_opts) : pipeline :=
  mkPipeline (pl_derandomize p) (Some o) (pl_block_length p).

(* Result::ok over a finished list of items: what filter_map(Result::ok) yields *)
Fixpoint oks {A} (l : list (result A)) : list A :=
  match l with
  | [] => []
  | Ok a :: l => a :: oks l
  | Err _ :: l => oks l
  end.

(* builder.rs:39-40: synchronize(..).filter_map(Result::ok), the iterator the later stages pull from *)
Definition blocks_next (fuel : nat) (s : biter) : option (outcome (option block * biter)) :=
  filter_ok_next biter_next fuel s.

(* The frames that reach the stage after frame_decoder. Without Reed-Solomon the caller pulls from
   frame_decoder itself, so a panic in it unwinds through the caller. With Reed-Solomon it is pulled by
   the submit thread (pipeline/reed_solomon.rs:91-121): a panic there unwinds that thread only, which
   drops jobs_tx and the pool exactly like the regular end of its loop; no profile in Cargo.toml sets
   panic = "abort". *)
Definition decoded_frames (ovf : bool) (rs : option rs_opts) (blocks : list block) (frames : list frame) : Prop :=
  yields (fdec_next ovf) (frame_decoder blocks) frames \/
  rs <> None /\ panics_after (fdec_next ovf) (frame_decoder blocks) frames.

(* builder.rs:38-56 start, for an input that is consumed to its end: the stages are composed as
   functions on the finite lists of items they exchange; the reed_solomon stage is any complete
   execution of its transition system with an active consumer. [nthreads] is what rayon makes of
   opts.num_threads (0 = number of CPUs). *)
Inductive pipeline_start (ovf : bool) (k : codec) (nthreads : nat) (p : pipeline) (r : reader)
  : list frame -> Prop :=
| start_intro : forall items blocks frames out,
    yields biter_next (synchronize r ASM (pl_block_length p)) items ->
    blocks = (if pl_derandomize p then derandomize (oks items) else oks items) ->
    decoded_frames ovf (pl_rs p) blocks frames ->
    match pl_rs p with
    | None => out = frames
    | Some o =>
        exists s, reachable (rs_job k (rs_of_opts o)) (ro_buffer_size o) nthreads frames s
                  /\ st_consumer s = CEnded /\ st_recv s = out
    end ->
    pipeline_start ovf k nthreads p r out.
