(* Model of ccsds-lib/src/framing/pipeline/reed_solomon.rs:63-173 over any iterator of frames. M_RsPipeline.v has the stage
   over a finished list of frames; here the submit thread asks the iterator itself, one call of next() at a time, when its
   loop (line 93) gets there. All the other steps are those of M_RsPipeline.v. *)
From Verif Require Import Base M_RsPipeline M_Live.
Open Scope nat_scope.

Section Source.
Context {S F : Type}.
Variable next : pullable S F.             (* the iterator passed to reed_solomon *)
Variable job : F -> outcome F.            (* the closure of lines 96-112 *)
Variable buf nthreads : nat.              (* opts.buffer_size, workers in the pool *)

(* the iterator, owned by the submit thread (`move`, line 92), and the stage; st_input of the stage is not used *)
Definition whole_state : Type := S * state (F := F).
Definition start_with (src : S) : whole_state := (src, init []).

Inductive live_step : whole_state -> label -> whole_state -> Prop :=
(* line 93-112: next() has returned a frame; its channel is created and its job spawned *)
| lv_take : forall n src f src' nx pe ru re jo di ou co rc,
    next n src = Some (Val (Some f, src')) ->
    live_step (src, mkState [] SIdle nx pe ru re jo di ou co rc false) LTake
              (src', mkState [] (SSend nx) (Datatypes.S nx) (pe ++ [(nx, f)]) ru re jo di ou co rc false)
(* line 93, 121: next() has returned None, which ends the for loop and the thread *)
| lv_end : forall n src src' nx pe ru re jo di ou co rc,
    next n src = Some (Val (None, src')) ->
    live_step (src, mkState [] SIdle nx pe ru re jo di ou co rc false) LEnd
              (src', mkState [] SDone nx pe ru re jo di ou co rc false)
(* next() panics: the thread unwinds, and jobs_tx and the handle of the pool are dropped as at its regular end. Nobody
   joins the thread (its JoinHandle is dropped at line 122) *)
| lv_panic : forall n src nx pe ru re jo di ou co rc,
    next n src = Some Panic ->
    live_step (src, mkState [] SIdle nx pe ru re jo di ou co rc false) LEnd
              (src, mkState [] SDone nx pe ru re jo di ou co rc false)
| lv_stage : forall src s l s',
    l <> LTake -> l <> LEnd -> step job buf nthreads s l s' ->
    live_step (src, s) l (src, s').

Inductive live_exec : whole_state -> list label -> whole_state -> Prop :=
| lx_nil : forall s, live_exec s [] s
| lx_cons : forall s l s' ls s'', live_step s l s' -> live_exec s' ls s'' -> live_exec s (l :: ls) s''.
End Source.
