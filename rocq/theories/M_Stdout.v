(* Model of how the reports of the ccsds command reach standard output and the file of --summary:
   ccsds-cmd/src/main.rs:478-482, frame.rs:156-158, 186-209, info.rs:156-170. Standard output is std's: a line buffer
   (LineWriter) of 1024 bytes in front of the file descriptor, which is emptied when the process ends without a look at
   the result; that part is external code (std::io). *)
From Verif Require Import Base M_Reader M_Frame M_ReedSolomon M_Pipeline M_Cli M_Main M_Write M_Json.
Open Scope N_scope.

Definition NEWLINE : N := 10.
(* LineWriter::new *)
Definition LINE_CAPACITY : nat := 1024%nat.
Record lwriter : Type := mkLw { lw_buf : list N; lw_raw : writer }.

(* BufWriter::flush_buf: what is not accepted stays in the buffer *)
Definition flush_buf (w : lwriter) : option iokind * lwriter :=
  let raw := lw_raw w in
  let '(got, st, es) := write_all_evs (lw_buf w) (w_evs raw) (w_fin raw) in
  (st, mkLw (skipn (length got) (lw_buf w)) (mkWriter es (w_fin raw) (w_got raw ++ got))).
(* BufWriter::write_all *)
Definition buf_write_all (b : list N) (w : lwriter) : option iokind * lwriter :=
  let spare := (LINE_CAPACITY - length (lw_buf w))%nat in
  if (length b <? spare)%nat then (None, mkLw (lw_buf w ++ b) (lw_raw w)) else
  let '(st, w) := if (spare <? length b)%nat then flush_buf w else (None, w) in
  match st with
  | Some k => (Some k, w)
  | None =>
      if (LINE_CAPACITY <=? length b)%nat then
        let '(st, raw) := write_all b (lw_raw w) in (st, mkLw (lw_buf w) raw)
      else (None, mkLw (lw_buf w ++ b) (lw_raw w))
  end.
(* memrchr and split_at: the bytes up to the last newline, and those behind it *)
Fixpoint split_lines (b : list N) : option (list N * list N) :=
  match b with
  | [] => None
  | c :: b =>
      match split_lines b with
      | Some (l, t) => Some (c :: l, t)
      | None => if c =? NEWLINE then Some ([c], b) else None
      end
  end.
(* LineWriterShim::write_all *)
Definition line_write_all (b : list N) (w : lwriter) : option iokind * lwriter :=
  match split_lines b with
  | None =>
      let '(st, w) := if last (lw_buf w) 0 =? NEWLINE then flush_buf w else (None, w) in
      match st with
      | Some k => (Some k, w)
      | None => buf_write_all b w
      end
  | Some (lines, tail) =>
      let '(st, w) :=
        if is_nil (lw_buf w) then let '(st, raw) := write_all lines (lw_raw w) in (st, mkLw (lw_buf w) raw)
        else match buf_write_all lines w with
             | (Some k, w) => (Some k, w)
             | (None, w) => flush_buf w
             end in
      match st with
      | Some k => (Some k, w)
      | None => buf_write_all tail w
      end
  end.
(* successive write_all calls, up to the first that fails *)
Fixpoint line_writes (pieces : list (list N)) (w : lwriter) : option iokind * lwriter :=
  match pieces with
  | [] => (None, w)
  | b :: pieces =>
      match line_write_all b w with
      | (Some k, w) => (Some k, w)
      | (None, w) => line_writes pieces w
      end
  end.
(* A whole process that writes [pieces] to standard output, which is a descriptor that does as [evs] and [fin] say: the
   error, if any, and what has arrived when the process has ended *)
Definition to_stdout (pieces : list (list N)) (evs : list wevent) (fin : wfinal) : option iokind * list N :=
  let '(st, w) := line_writes pieces (mkLw [] (mkWriter evs fin [])) in
  (st, w_got (lw_raw (snd (flush_buf w)))).

(* info.rs:156-170: the exit status and what arrives; [pieces] are the write_all calls that the formatter makes *)
Definition report_to_stdout (pieces : list (list N)) (evs : list wevent) (fin : wfinal) : exit * list N :=
  let '(st, got) := to_stdout pieces evs fin in (match st with None => Success | Some _ => Failure end, got).

(* main.rs:419-493 with --summary: as framing_command (M_Main.v), and then main.rs:478-482. [sum_path] is the argument of
   --summary; fs::write creates the file and writes it in one go, to a device that does as [sevs] and [sfin] say. The text
   for standard output is [text_report] of the summary (M_Text.v). Result: exit status, files, what arrives at standard
   output. *)
Inductive framing_report (ovf : bool) (k : codec) (nthreads : nat) (creatable : N -> bool) (text_report : finfo -> amap finfo -> list N)
    (sevs : list wevent) (sfin : wfinal) (evs : list wevent) (fin : wfinal)
    (fs : fsys) (a : framing_args) (sum_path : option N) : exit -> fsys -> list N -> Prop :=
| report_no_run : forall x fs',
    framing_command ovf k nthreads creatable fs a x fs' None ->
    framing_report ovf k nthreads creatable text_report sevs sfin evs fin fs a sum_path Failure fs' []
| report_text_only : forall x fs' all rows ex got,
    framing_command ovf k nthreads creatable fs a x fs' (Some (all, rows)) ->
    sum_path = None ->
    report_to_stdout [text_report all rows] evs fin = (ex, got) ->
    framing_report ovf k nthreads creatable text_report sevs sfin evs fin fs a sum_path ex fs' got
| report_cannot_create : forall x fs' all rows s,
    framing_command ovf k nthreads creatable fs a x fs' (Some (all, rows)) ->
    sum_path = Some s -> creatable s = false ->
    framing_report ovf k nthreads creatable text_report sevs sfin evs fin fs a sum_path Failure fs' []
| report_not_written : forall x fs' all rows s e w,
    framing_command ovf k nthreads creatable fs a x fs' (Some (all, rows)) ->
    sum_path = Some s -> creatable s = true ->
    write_all (render_json_summary all rows) (mkWriter sevs sfin []) = (Some e, w) ->
    framing_report ovf k nthreads creatable text_report sevs sfin evs fin fs a sum_path Failure (aset s (w_got w) fs') []
| report_written : forall x fs' all rows s w ex got,
    framing_command ovf k nthreads creatable fs a x fs' (Some (all, rows)) ->
    sum_path = Some s -> creatable s = true ->
    write_all (render_json_summary all rows) (mkWriter sevs sfin []) = (None, w) ->
    report_to_stdout [text_report all rows] evs fin = (ex, got) ->
    framing_report ovf k nthreads creatable text_report sevs sfin evs fin fs a sum_path ex (aset s (w_got w) fs') got.
