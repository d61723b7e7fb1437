(* Model of ccsds-lib/src/framing/pipeline/reed_solomon.rs:63-173: the submit thread, the rayon pool,
   the dispatch thread, the two bounded channels and the consumer of the returned iterator, as a
   labelled transition system. One step is one atomic action of one thread.
   External: crossbeam channels (bounded FIFO; capacity 0 is a rendezvous; recv fails when empty and all
   senders are dropped; send fails when the receiver is dropped), rayon (every spawned job is
   eventually run by one of the num_threads workers, in any order, also after the pool handle was
   dropped; a panicking job without panic handler aborts the process). *)
From Verif Require Import Base.
Open Scope nat_scope.

Section Lts.
Context {F : Type}.                       (* frames *)
Variable job : F -> outcome F.            (* the closure of reed_solomon.rs:96-112 *)
Variable buf : nat.                       (* opts.buffer_size *)
Variable nthreads : nat.                  (* workers in the pool *)

(* submit thread, lines 92-121 *)
Inductive submit_pc : Type :=
| SIdle                                   (* at `for mut frame in frames` *)
| SSend (id : nat)                        (* at `jobs_tx.send(job_rx)` *)
| SDone.                                  (* loop left: jobs_tx and the pool handle dropped *)

(* dispatch thread, lines 125-132 *)
Inductive dispatch_pc : Type :=
| DIdle                                   (* at `for job in jobs_rx` *)
| DWait (id : nat)                        (* at `job.recv()` *)
| DSend (f : F)                           (* at `result_tx.send(frame)` *)
| DDone.                                  (* returned: result_tx and jobs_rx dropped *)

Inductive consumer_pc : Type :=
| CActive                                 (* may call next on output_rx.into_iter() *)
| CEnded                                  (* next returned None *)
| CDropped.                               (* the iterator was dropped *)

Record state : Type := mkState {
  st_input : list F;                      (* what `frames` still yields *)
  st_submit : submit_pc;
  st_next : nat;                          (* number of job channels created *)
  st_pending : list (nat * F);            (* spawned, not started *)
  st_running : list (nat * F);            (* being computed by a worker *)
  st_results : list (nat * F);            (* frames sitting in the one-slot job channels *)
  st_jobs : list nat;                     (* contents of the jobs channel, oldest first *)
  st_dispatch : dispatch_pc;
  st_out : list F;                        (* contents of the output channel *)
  st_consumer : consumer_pc;
  st_recv : list F;                       (* frames the consumer has received *)
  st_aborted : bool }.

Definition init (frames : list F) : state :=
  mkState frames SIdle 0 [] [] [] [] DIdle [] CActive [] false.

(* capacities: jobs channel `bounded(opts.buffer_size * 2)` (line 77), output channel
   `bounded(opts.buffer_size)` (line 162) *)
Definition jobs_cap : nat := buf * 2.
Definition out_cap : nat := buf.

Inductive label : Type :=
| LTake | LEnd | LSubmit | LStart (id : nat) | LFinish (id : nat) | LAbort (id : nat)
| LJob | LJobsClosed | LResult | LOutput | LRecv | LRecvNone | LDrop.

Inductive step : state -> label -> state -> Prop :=
(* line 93-112: take a frame, create its channel, spawn its job *)
| st_take : forall f fs nx pe ru re jo di ou co rc,
    step (mkState (f :: fs) SIdle nx pe ru re jo di ou co rc false) LTake
         (mkState fs (SSend nx) (S nx) (pe ++ [(nx, f)]) ru re jo di ou co rc false)
(* line 93, 121: the frames are exhausted *)
| st_end : forall nx pe ru re jo di ou co rc,
    step (mkState [] SIdle nx pe ru re jo di ou co rc false) LEnd
         (mkState [] SDone nx pe ru re jo di ou co rc false)
(* line 116: send into a channel with room *)
| st_submit_buf : forall fs id nx pe ru re jo di ou co rc,
    length jo < jobs_cap -> di <> DDone ->
    step (mkState fs (SSend id) nx pe ru re jo di ou co rc false) LSubmit
         (mkState fs SIdle nx pe ru re (jo ++ [id]) di ou co rc false)
(* line 116: hand over to the waiting dispatch thread (always possible when capacity is 0) *)
| st_submit_rdv : forall fs id nx pe ru re ou co rc,
    jobs_cap = 0 ->
    step (mkState fs (SSend id) nx pe ru re [] DIdle ou co rc false) LSubmit
         (mkState fs SIdle nx pe ru re [] (DWait id) ou co rc false)
(* line 116-119: the receiver is gone *)
| st_submit_fail : forall fs id nx pe ru re jo ou co rc,
    step (mkState fs (SSend id) nx pe ru re jo DDone ou co rc false) LSubmit
         (mkState fs SDone nx pe ru re jo DDone ou co rc false)
(* a worker takes any spawned job *)
| st_start : forall fs su nx p1 id f p2 ru re jo di ou co rc,
    length ru < nthreads ->
    step (mkState fs su nx (p1 ++ (id, f) :: p2) ru re jo di ou co rc false) (LStart id)
         (mkState fs su nx (p1 ++ p2) (ru ++ [(id, f)]) re jo di ou co rc false)
(* line 97-111: a worker completes any running job; the one-slot channel never blocks *)
| st_finish : forall fs su nx pe r1 id f f' r2 re jo di ou co rc,
    job f = Val f' ->
    step (mkState fs su nx pe (r1 ++ (id, f) :: r2) re jo di ou co rc false) (LFinish id)
         (mkState fs su nx pe (r1 ++ r2) ((id, f') :: re) jo di ou co rc false)
(* line 100: panic in a pool thread *)
| st_abort : forall fs su nx pe r1 id f r2 re jo di ou co rc,
    job f = Panic ->
    step (mkState fs su nx pe (r1 ++ (id, f) :: r2) re jo di ou co rc false) (LAbort id)
         (mkState fs su nx pe (r1 ++ (id, f) :: r2) re jo di ou co rc true)
(* line 125: receive the next job channel *)
| st_job : forall fs su nx pe ru re id jo ou co rc,
    step (mkState fs su nx pe ru re (id :: jo) DIdle ou co rc false) LJob
         (mkState fs su nx pe ru re jo (DWait id) ou co rc false)
(* line 125: all senders dropped and the channel is empty *)
| st_jobs_closed : forall fs nx pe ru re ou co rc,
    step (mkState fs SDone nx pe ru re [] DIdle ou co rc false) LJobsClosed
         (mkState fs SDone nx pe ru re [] DDone ou co rc false)
(* line 126: job.recv() *)
| st_result : forall fs su nx pe ru r1 id f r2 jo ou co rc,
    step (mkState fs su nx pe ru (r1 ++ (id, f) :: r2) jo (DWait id) ou co rc false) LResult
         (mkState fs su nx pe ru (r1 ++ r2) jo (DSend f) ou co rc false)
(* line 127: result_tx.send *)
| st_out_buf : forall fs su nx pe ru re jo f ou co rc,
    length ou < out_cap -> co <> CDropped ->
    step (mkState fs su nx pe ru re jo (DSend f) ou co rc false) LOutput
         (mkState fs su nx pe ru re jo DIdle (ou ++ [f]) co rc false)
| st_out_rdv : forall fs su nx pe ru re jo f rc,
    out_cap = 0 ->
    step (mkState fs su nx pe ru re jo (DSend f) [] CActive rc false) LOutput
         (mkState fs su nx pe ru re jo DIdle [] CActive (rc ++ [f]) false)
(* line 127: the result of a failing send is ignored *)
| st_out_fail : forall fs su nx pe ru re jo f ou rc,
    step (mkState fs su nx pe ru re jo (DSend f) ou CDropped rc false) LOutput
         (mkState fs su nx pe ru re jo DIdle ou CDropped rc false)
(* line 172: the consumer calls next *)
| st_recv_some : forall fs su nx pe ru re jo di f ou rc,
    step (mkState fs su nx pe ru re jo di (f :: ou) CActive rc false) LRecv
         (mkState fs su nx pe ru re jo di ou CActive (rc ++ [f]) false)
| st_recv_none : forall fs su nx pe ru re jo rc,
    step (mkState fs su nx pe ru re jo DDone [] CActive rc false) LRecvNone
         (mkState fs su nx pe ru re jo DDone [] CEnded rc false)
(* the consumer drops the iterator *)
| st_drop : forall fs su nx pe ru re jo di ou rc,
    step (mkState fs su nx pe ru re jo di ou CActive rc false) LDrop
         (mkState fs su nx pe ru re jo di [] CDropped rc false).

(* executions *)
Inductive exec : state -> list label -> state -> Prop :=
| exec_nil : forall s, exec s [] s
| exec_cons : forall s l s' ls s'', step s l s' -> exec s' ls s'' -> exec s (l :: ls) s''.

Definition reachable (frames : list F) (s : state) : Prop := exists ls, exec (init frames) ls s.

End Lts.
