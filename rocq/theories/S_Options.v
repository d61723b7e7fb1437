(* Specification of option builders: sequences of setter calls, of which the last of each kind counts *)
From Verif Require Import Base M_Sync M_Frame M_ReedSolomon M_Pipeline.
Open Scope nat_scope.

(* calls on RsOpts *)
Inductive opt_call : Type :=
| VirtualFill (n : nat) | NumThreads (n : nat) | Correction (b : bool) | Detection (b : bool) | BufferSize (n : nat).
(* calls on DefaultReedSolomon *)
Inductive rs_call : Type :=
| RsVirtualFill (n : nat) | RsCorrection (b : bool) | RsDetection (b : bool) | RsRemoveParity (b : bool).

(* the argument of the last call of the kind [f] picks, or the default *)
Fixpoint last_of {C A} (f : C -> option A) (default : A) (calls : list C) : A :=
  match calls with
  | [] => default
  | c :: calls => last_of f (match f c with Some x => x | None => default end) calls
  end.
Definition fill_call (c : opt_call) : option nat := match c with VirtualFill n => Some n | _ => None end.
Definition correction_call (c : opt_call) : option bool := match c with Correction b => Some b | _ => None end.
Definition buffer_call (c : opt_call) : option nat := match c with BufferSize n => Some n | _ => None end.
Definition threads_call (c : opt_call) : option nat := match c with NumThreads n => Some n | _ => None end.
Definition rs_fill_call (c : rs_call) : option nat := match c with RsVirtualFill n => Some n | _ => None end.
Definition rs_correction_call (c : rs_call) : option bool := match c with RsCorrection b => Some b | _ => None end.
Definition rs_parity_call (c : rs_call) : option bool := match c with RsRemoveParity b => Some b | _ => None end.
(* RsOpts::new(il) followed by the calls *)
Definition call_opt (o : rs_opts) (c : opt_call) : rs_opts :=
  match c with
  | VirtualFill n => ro_with_virtual_fill o n | NumThreads n => ro_with_num_threads o n
  | Correction b => ro_with_correction o b | Detection b => ro_with_detection o b
  | BufferSize n => ro_with_buffer_size o n
  end.
Definition opts_of (il : nat) (calls : list opt_call) : rs_opts := fold_left call_opt calls (rs_opts_new il).
(* DefaultReedSolomon::new(il) followed by the calls *)
Definition call_rs (c : rs_cfg) (x : rs_call) : rs_cfg :=
  match x with
  | RsVirtualFill n => rs_with_virtual_fill c n | RsCorrection b => rs_with_correction c b
  | RsDetection b => rs_with_detection c b | RsRemoveParity b => rs_with_remove_parity c b
  end.
Definition rs_of (il : nat) (calls : list rs_call) : rs_cfg := fold_left call_rs calls (rs_new il).
(* what the stage makes of a frame, in terms of DefaultReedSolomon *)
Definition corrected_by (k : codec) (c : rs_cfg) (f f' : frame) : Prop :=
  f_header f' = f_header f /\ f_missing f' = f_missing f /\
  (v_vcid (f_header f) = 63%N -> f' = f) /\
  (v_vcid (f_header f) <> 63%N -> exists integ data, perform k c (f_data f) = Val (Ok (integ, data)) /\
     f_integrity f' = Some integ /\
     f_data f' = match integ with IOk | ICorrected => data | _ => f_data f end).
