(* Model of the decoding written out in the documentation of ccsds-lib/src/framing/mod.rs:3-28 *)
From Verif Require Import Base M_Reader M_Packet M_Bytes M_Sync M_Pn M_Frame M_ReedSolomon M_RsPipeline M_Pipeline.
Open Scope nat_scope.

(* framing/mod.rs:16 synchronize(file, ..).map_while(Result::ok): one call of next, which is one call
   on the synchronizer *)
Definition while_next (s : biter) : outcome (option block * biter) :=
  let* '(o, s') := biter_next s in
  match o with
  | Some (Ok b) => Val (Some b, s')
  | Some (Err _) | None => Val (None, s')
  end.

(* framing/mod.rs:25-28: the closure given to filter *)
Definition doc_filter (f : frame) : bool :=
  match f_integrity f with
  | Some i => integrity_ok i
  | None => false
  end.

(* framing/mod.rs:16-28, for an input that is consumed to its end: synchronize, map_while, derandomize,
   frame_decoder, reed_solomon, filter. As in M_Pipeline.v the stages are composed as functions on the
   finite lists of items they exchange, and the reed_solomon stage is any complete execution of its
   transition system with an active consumer. [o] are the options built in lines 19-23, [len] is
   block_len, the asm is SyncOpts::new's. map_while's closure is not asked again after the first None:
   the submit thread's loop over the frames (pipeline/reed_solomon.rs:92) ends there. *)
Inductive recipe (ovf : bool) (k : codec) (nthreads : nat) (len : nat) (o : rs_opts) (r : reader) : list frame -> Prop :=
| recipe_intro : forall blocks frames s,
    yields while_next (synchronize r ASM len) blocks ->
    decoded_frames ovf (Some o) (derandomize blocks) frames ->
    reachable (rs_job k (rs_of_opts o)) (ro_buffer_size o) nthreads frames s ->
    st_consumer s = CEnded ->
    recipe ovf k nthreads len o r (filter doc_filter (st_recv s)).
