(* Model of the writing done by Merger::merge and by the ccsds commands, on writers whose writes fail or are
   cut short: spacepacket/merge.rs:168-179, ccsds-cmd/src/filter.rs:97-136, frame.rs:85-154, main.rs:329-493.
   M_Merge.v, M_Cli.v and M_Main.v model the same functions on writers that accept everything. *)
From Verif Require Import Base M_Reader M_Packet M_Group M_Timecode M_Merge M_Frame M_ReedSolomon M_Pipeline M_Cli M_Main.
Open Scope N_scope.

(* External code (std::io::Write): a writer is a finite script of what successive write calls do, followed by a
   final behaviour that lasts forever *)
Inductive wevent : Type :=
| WAccept (n : nat)         (* accepts at most n of the bytes offered; Ok(0) when n = 0 *)
| WFail (k : iokind).       (* one failing write *)
Inductive wfinal : Type :=
| Accepts                   (* every further write accepts all it is given *)
| Refuses (code : N).       (* every further write fails; also stands for a process that was stopped *)
Record writer : Type := mkWriter { w_evs : list wevent; w_fin : wfinal; w_got : list N }.
(* ErrorKind::WriteZero *)
Definition WRITE_ZERO : iokind := OtherIo 23.

(* Write::write: the number of bytes accepted, or the error *)
Definition write (buf : list N) (w : writer) : (nat + iokind) * writer :=
  match w_evs w with
  | [] => match w_fin w with
          | Accepts => (inl (length buf), mkWriter [] Accepts (w_got w ++ buf))
          | Refuses c => (inr (OtherIo c), w)
          end
  | WAccept n :: es => (inl (Nat.min n (length buf)), mkWriter es (w_fin w) (w_got w ++ firstn n buf))
  | WFail k :: es => (inr k, mkWriter es (w_fin w) (w_got w))
  end.

(* Write::write_all, std's default: while !buf.is_empty() { match write(buf) { Ok(0) => return Err(WriteZero),
   Ok(n) => buf = &buf[n..], Err(Interrupted) => {}, Err(e) => return Err(e) } }. Returns what was accepted, the
   error, and the rest of the script. Written as structural recursion over the script; [write_all_loop] in
   P_Write.v shows that it is that loop over [write]. *)
Fixpoint write_all_evs (buf : list N) (es : list wevent) (f : wfinal) : list N * option iokind * list wevent :=
  match buf with
  | [] => ([], None, es)
  | _ :: _ =>
      match es with
      | [] => match f with
              | Accepts => (buf, None, [])
              | Refuses c => ([], Some (OtherIo c), [])
              end
      | WFail Interrupted :: es => write_all_evs buf es f
      | WFail k :: es => ([], Some k, es)
      | WAccept O :: es => ([], Some WRITE_ZERO, es)
      | WAccept n :: es =>
          if (n <? length buf)%nat then
            let '(got, st, es') := write_all_evs (skipn n buf) es f in (firstn n buf ++ got, st, es')
          else (buf, None, es)
      end
  end.
Definition write_all (buf : list N) (w : writer) : option iokind * writer :=
  let '(got, st, es) := write_all_evs buf (w_evs w) (w_fin w) in (st, mkWriter es (w_fin w) (w_got w ++ got)).

(* spacepacket/merge.rs:168-179 *)
Fixpoint write_groups_to (readers : amap (list N)) (l : list ptr) (w : writer) : outcome (result unit * writer) :=
  match l with
  | [] => Val (Ok tt, w)
  | p :: rest =>
      match aget (pt_path p) readers with
      | None => Panic                                     (* unwrap *)
      | Some bs =>
          if (length (skipn (pt_offset p) bs) <? pt_size p)%nat
          then Val (Err (Io UnexpectedEof), w)
          else
            match write_all (firstn (pt_size p) (skipn (pt_offset p) bs)) w with
            | (Some k, w) => Val (Err (Io k), w)
            | (None, w) => write_groups_to readers rest w
            end
      end
  end.
(* spacepacket/merge.rs:88-182 Merger::merge *)
Definition merge_to (h : hash_order) (fs : files) (m : merger) (w : writer) : outcome (result unit * writer) :=
  match open_readers fs (mg_paths m) [] with
  | Err e => Val (Err e, w)
  | Ok readers =>
      let* index := build_index m (ho_readers h readers) [] in
      write_groups_to readers (sort_index (ho_index h index)) w
  end.

(* filter.rs:97-136: the loop that writes *)
Fixpoint filter_loop_to (include exclude : list N) (before after : option Z) (ptrs : list fptr) (w : writer)
  : option iokind * writer :=
  match ptrs with
  | [] => (None, w)
  | p :: rest =>
      if filter_keep include exclude before after p then
        match write_all (fp_data p) w with
        | (Some k, w) => (Some k, w)
        | (None, w) => filter_loop_to include exclude before after rest w
        end
      else filter_loop_to include exclude before after rest w
  end.
Inductive filter_result : Type := Filtered | NoFilters | FilterWrite (k : iokind).
(* filter.rs:58-140. The code reads the input while it writes; reading has no effect of its own (but
   for a panic, which is one here even if a write would have failed earlier), so the packets are listed first here. *)
Definition filter_to (items : list (result packet)) (include exclude : list N)
    (before after : option Z) (w : writer) : outcome (filter_result * writer) :=
  if is_nil include && is_nil exclude && is_none before && is_none after then Val (NoFilters, w) else
  let* ptrs :=
    (if negb (is_none before) || negb (is_none after)
     then packets_with_times items
     else Val (map (fun p => mkFptr (p_data p) (apid (p_header p)) MIN_EPOCH) (map_while_ok items))) in
  match filter_loop_to include exclude before after ptrs w with
  | (Some k, w) => Val (FilterWrite k, w)
  | (None, w) => Val (Filtered, w)
  end.

(* frame.rs:94-147 with --output: what was counted, the error of the write that failed, and the writer *)
Fixpoint frame_loop_to (len : nat) (keep_fill : bool) (include exclude : list N)
    (frames : list frame) (all : finfo) (vcids : amap finfo) (w : writer)
  : outcome (finfo * amap finfo * option iokind * writer) :=
  match frames with
  | [] => Val (all, vcids, None, w)
  | f :: fs =>
      if negb (frame_selected keep_fill include exclude f)
      then frame_loop_to len keep_fill include exclude fs all vcids w
      else
        let v := v_vcid (f_header f) in
        let ch := match aget v vcids with Some i => i | None => finfo0 end in
        let all := finfo_add all f in
        let vcids := aset v (finfo_add ch f) vcids in
        if negb (frame_written f)
        then frame_loop_to len keep_fill include exclude fs all vcids w
        else
          let* d := slice (f_data f) 0 len in
          match write_all d w with
          | (Some k, w) => Val (all, vcids, Some k, w)
          | (None, w) => frame_loop_to len keep_fill include exclude fs all vcids w
          end
  end.
(* frame.rs:85-154: the summary, or the error (`?` returns before any summary exists) *)
Definition frame_cmd_to (len : nat) (keep_fill : bool) (include exclude : list N) (frames : list frame) (w : writer)
  : outcome ((finfo * amap finfo + iokind) * writer) :=
  let* '(all, vcids, st, w) := frame_loop_to len keep_fill include exclude frames finfo0 [] w in
  Val (match st with None => inl (all, apid_sort vcids) | Some k => inr k end, w).

(* main.rs:329-379 and merge.rs:15-51, where writes to the output do as [evs] and [fin] say *)
Definition merge_command_to (h : hash_order) (creatable : N -> bool) (evs : list wevent) (fin : wfinal)
    (fs : fsys) (a : merge_args) : outcome (exit * fsys) :=
  if negb (ma_clobber a) && exists_file fs (ma_output a) then Val (Failure, fs) else
  match (match ma_apid_order_name a with
         | Some name => apid_order name
         | None => Some (match ma_apid_order a with Some o => o | None => [] end)
         end) with
  | None => Val (Failure, fs)
  | Some order =>
      if negb (creatable (ma_output a)) then Val (Failure, fs) else
      let fs := aset (ma_output a) [] fs in
      if is_nil (ma_inputs a) then Val (Failure, fs) else
      let m := merger_of_args a order in
      let* '(r, w) := merge_to h (fun p => aget p fs) m (mkWriter evs fin []) in
      Val (match r with Ok _ => Success | Err _ => Failure end, aset (ma_output a) (w_got w) fs)
  end.

(* main.rs:385-411, likewise *)
Definition filter_command_to (creatable : N -> bool) (evs : list wevent) (fin : wfinal) (fs : fsys) (a : filter_args)
  : outcome (exit * fsys) :=
  if negb (fa_clobber a) && exists_file fs (fa_output a) then Val (Failure, fs) else
  match aget (fa_input a) fs with
  | None => Val (Failure, fs)
  | Some _ =>
      if negb (creatable (fa_output a)) then Val (Failure, fs) else
      let fs := aset (fa_output a) [] fs in
      match parse_number_ranges (fa_include a), parse_number_ranges (fa_exclude a) with
      | Some i, Some e =>
          if is_nil (to_u16s i) && is_nil (to_u16s e) && is_none (fa_before a) && is_none (fa_after a)
          then Val (Failure, fs) else
          let* items := match aget (fa_input a) fs with
                        | Some bs => file_items bs
                        | None => Val []
                        end in
          let* '(r, w) := filter_to items (to_u16s i) (to_u16s e) (fa_before a) (fa_after a) (mkWriter evs fin []) in
          Val (match r with Filtered => Success | _ => Failure end, aset (fa_output a) (w_got w) fs)
      | _, _ => Val (Failure, fs)
      end
  end.

(* main.rs:419-493 with --output, likewise; [frames] are those the pipeline yields when it is read to its end (after
   a failed write the rest of them is dropped). See framing_command in M_Main.v. *)
Inductive framing_command_to (ovf : bool) (k : codec) (nthreads : nat) (evs : list wevent) (fin : wfinal)
    (fs : fsys) (a : framing_args) : exit -> fsys -> option (finfo * amap finfo) -> Prop :=
| framing_to : forall len p i e bs frames r w o,
    framing_setup a = Some (len, p, i, e) -> aget (fr_input a) fs = Some bs ->
    fr_output a = Some o -> o <> fr_input a ->
    pipeline_start ovf k nthreads p (reader_of bs) frames ->
    frame_cmd_to len (fr_keep_fill a) i e frames (mkWriter evs fin []) = Val (r, w) ->
    framing_command_to ovf k nthreads evs fin fs a
      (match r with inl _ => Success | inr _ => Failure end) (aset o (w_got w) fs)
      (match r with inl s => Some s | inr _ => None end).
