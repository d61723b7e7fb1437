(* Specification of the framing command: its figures, which frames it looks at, and what it reads *)
From Verif Require Import Base S_Packet S_Group M_Packet M_Sync M_Pn M_Frame M_Merge S_Merge M_Pipeline M_Cli S_Cli M_Main S_Main M_Live S_Live S_Pause.
Open Scope N_scope.

(* the counters describe the frames fs *)
Definition tallies (fs : list frame) (i : finfo) : Prop :=
  fi_total_frames i = N.of_nat (length fs) /\
  fi_total_bytes i = sumN (map (fun f => N.of_nat (length (f_data f))) fs) /\
  fi_missing i = sumN (map f_missing fs) /\
  fi_ok i = count_integrity [Some IOk] fs /\
  fi_corrected i = count_integrity [Some ICorrected] fs /\
  fi_uncorrectable i = count_integrity [Some IUncorrectable; Some INotCorrected] fs /\
  fi_error i = count_integrity [Some IFailed] fs /\
  fi_not_performed i = count_integrity [None] fs.
(* the frames the command looks at, in terms of the numbers on the command line *)
Definition looked_at (a : framing_args) (include exclude : list N) (f : frame) : Prop :=
  (fr_keep_fill a = false -> v_vcid (f_header f) <> 63) /\ accepted include exclude (v_vcid (f_header f)).
(* what the frame decoder gets to see *)
Definition cadus_of (p : pipeline) (items : list (result block)) : list block :=
  if pl_derandomize p then map derandomize_cadu (keep_ok items) else keep_ok items.
(* What the frames that can be pulled are, and how it ends: an unreadable CADU looks like an end *)
Inductive frames_read (ovf : bool) (cadus : list block) (h : status) : list frame -> status -> Prop :=
| fr_yields : forall frames, yields (fdec_next ovf) (frame_decoder cadus) frames ->
    frames_read ovf cadus h frames (if existsb unreadable cadus then Returned else h)
| fr_panics : forall frames, panics_after (fdec_next ovf) (frame_decoder cadus) frames -> frames_read ovf cadus h frames Panicking.
(* how a run that has ended, or is still running, presents itself: progress, output file, report *)
Definition shown (st : status) (out : option (list N)) (sum : finfo * amap finfo) : M_Live.progress * option (list N) * option (finfo * amap finfo) :=
  match st with
  | Returned => (Exited Success, out, Some sum)
  | Panicking => (Aborted, out, None)
  | Running => (Going, out, None)
  end.
(* what Pipeline::start hands to the frame decoder *)
Definition pulled (p : pipeline) (items : list (result block)) : list block :=
  if pl_derandomize p then derandomize (oks items) else oks items.
