(* Model of the ccsds command: ccsds-cmd/src/filter.rs, diff.rs, info.rs, frame.rs, merge.rs and the
   argument handling of main.rs. Functions that read packets take the list of items that
   decode_packets returned on the input (see yields pdec_next in Base.v / M_Packet.v). *)
From Verif Require Import Base M_Packet M_Group M_Timecode M_Merge M_Frame M_ReedSolomon M_Pipeline.
Open Scope N_scope.

(* ---- filter.rs ---- *)

(* filter.rs:14 *)
Record fptr : Type := mkFptr { fp_data : list N; fp_apid : N; fp_time : Z }.

(* filter.rs:20-55: the closure of packets_with_times *)
Definition fptr_of_group (g : pgroup) : option fptr :=
  match g_packets g with
  | [] => None
  | first :: _ =>
      if is_last first || is_cont first then None else
      match cds_time first with
      | None => None
      | Some t => Some (mkFptr (concat (map p_data (g_packets g))) (apid (p_header first)) t)
      end
  end.
(* filter.rs:16-56 *)
Definition packets_with_times (items : list (result packet)) : outcome (list fptr) :=
  let* gs := file_groups (keep_ok items) in
  Val (filter_map_opt fptr_of_group gs).

(* Iterator::map_while(Result::ok) *)
Fixpoint map_while_ok {A} (l : list (result A)) : list A :=
  match l with
  | Ok a :: l => a :: map_while_ok l
  | _ => []
  end.

(* filter.rs:70-71 *)
Definition MIN_EPOCH : Z := 0.
Definition MAX_EPOCH : Z := 73049 * 86400000000000.

Definition is_none {A} (o : option A) : bool := match o with None => true | Some _ => false end.
Definition is_nil {A} (l : list A) : bool := match l with [] => true | _ => false end.
Definition mem (a : N) (l : list N) : bool := existsb (N.eqb a) l.

(* filter.rs:97-135: is the packet written *)
Definition filter_keep (include exclude : list N) (before after : option Z) (p : fptr) : bool :=
  let have_before := negb (is_none before) in
  let have_after := negb (is_none after) in
  let bef := match before with Some b => b | None => MAX_EPOCH end in
  let aft := match after with Some a => a | None => MIN_EPOCH end in
  let stamp := fp_time p in
  if (have_before && have_after && (stamp <? aft)%Z) || (bef <=? stamp)%Z then false
  else if have_before && (bef <=? stamp)%Z then false
  else if have_after && (stamp <? aft)%Z then false
  else if negb (is_nil include) && negb (mem (fp_apid p) include) then false
  else if negb (is_nil exclude) && mem (fp_apid p) exclude then false
  else true.

(* filter.rs:58-140: None = the error "no filters specified"; otherwise the bytes written *)
Definition filter_cmd (items : list (result packet)) (include exclude : list N)
    (before after : option Z) : outcome (option (list N)) :=
  if is_nil include && is_nil exclude && is_none before && is_none after then Val None else
  let* ptrs :=
    (if negb (is_none before) || negb (is_none after)
     then packets_with_times items
     else Val (map (fun p => mkFptr (p_data p) (apid (p_header p)) MIN_EPOCH) (map_while_ok items))) in
  Val (Some (concat (map fp_data (filter (filter_keep include exclude before after) ptrs)))).

(* ---- main.rs:276-307 parse_number_ranges ---- *)
(* A string is a list of code points. The regex ^(?:(\d+)|(\d+)-(\d+))$ matches digits of any script, but u32
   parsing then only accepts ASCII digits and both failures are reported as an error, so only ASCII
   digits are represented. *)
Definition is_digit (c : N) : bool := (48 <=? c) && (c <=? 57).
Definition DASH : N := 45.
(* str::parse::<u32> on a string of ASCII digits *)
Fixpoint parse_digits (acc : N) (s : list N) : option N :=
  match s with
  | [] => Some acc
  | c :: s => let v := acc * 10 + (c - 48) in
              if v <? 2 ^ 32 then parse_digits v s else None
  end.
(* the maximal run of digits in front *)
Fixpoint span_digits (s : list N) : list N * list N :=
  match s with
  | c :: s' => if is_digit c then let '(d, r) := span_digits s' in (c :: d, r) else ([], s)
  | [] => ([], [])
  end.
(* start..=end *)
Definition inclusive_range (a b : N) : list N :=
  map (fun i => a + N.of_nat i) (seq 0 (N.to_nat (b + 1 - a))).
Definition parse_one (s : list N) : option (list N) :=
  let '(d1, rest) := span_digits s in
  match d1, rest with
  | [], _ => None
  | _ :: _, [] => match parse_digits 0 d1 with Some n => Some [n] | None => None end
  | _ :: _, c :: rest' =>
      if c =? DASH then
        let '(d2, rest2) := span_digits rest' in
        match d2, rest2 with
        | _ :: _, [] =>
            match parse_digits 0 d1, parse_digits 0 d2 with
            | Some a, Some b => if b <=? a then None else Some (inclusive_range a b)
            | _, _ => None
            end
        | _, _ => None
        end
      else None
  end.
Fixpoint parse_number_ranges (l : list (list N)) : option (list N) :=
  match l with
  | [] => Some []
  | s :: rest =>
      match parse_one s with
      | None => None
      | Some vs => match parse_number_ranges rest with
                   | None => None
                   | Some ws => Some (vs ++ ws)
                   end
      end
  end.
(* main.rs:397-404, 436-443: values that do not fit an Apid/Vcid (u16) are dropped *)
Definition to_u16s (l : list N) : list N := filter (fun v => v <? 65536) l.

(* main.rs:397-411 (the Filter command) and filter.rs:73-75. [items] is what reading the input gives; it is not read
   at all when the arguments are no numbers or there is no filter. *)
Definition filter_main (items : outcome (list (result packet))) (include exclude : list (list N))
    (before after : option Z) : outcome (option (list N)) :=
  match parse_number_ranges include, parse_number_ranges exclude with
  | Some i, Some e =>
      if is_nil (to_u16s i) && is_nil (to_u16s e) && is_none before && is_none after then Val None else
      let* items := items in
      filter_cmd items (to_u16s i) (to_u16s e) before after
  | _, _ => Val None
  end.

(* ---- diff.rs ---- *)
(* diff.rs:7 *)
Definition key : Type := (N * N * N)%type.
(* derived Ord: lexicographic *)
Definition key_cmp (a b : key) : comparison :=
  let '(a1, a2, a3) := a in
  let '(b1, b2, b3) := b in
  match a1 ?= b1 with
  | Eq => match a2 ?= b2 with Eq => a3 ?= b3 | c => c end
  | c => c
  end.
Definition key_le (a b : key) : bool := match key_cmp a b with Gt => false | _ => true end.
Fixpoint key_insert (k : key) (l : list key) : list key :=
  match l with
  | [] => [k]
  | x :: r => if key_le k x then k :: l else x :: key_insert k r
  end.
(* Vec::sort *)
Definition key_sort (l : list key) : list key := fold_right key_insert [] l.

(* diff.rs:13-25: csum is CRC-32, external; the slice panics on a packet below 6 bytes *)
Fixpoint diff_keys (csum : list N -> N) (ps : list packet) : outcome (list key) :=
  match ps with
  | [] => Val []
  | p :: ps =>
      let* body := slice_from (p_data p) HDR_LEN in
      let* ks := diff_keys csum ps in
      Val ((apid (p_header p), sequence_id (p_header p), csum body) :: ks)
  end.

(* diff.rs:82-122: the number of differences counted. The arguments are the cached element, if any,
   and the rest of each iterator. Structural on the total length through [fuel], which
   suffices: rows_loop in P_CliDiff2.v. *)
Fixpoint diff_loop (fuel : nat) (cl : option key) (l : list key) (cr : option key) (r : list key)
    (n : N) : option N :=
  match fuel with
  | O => None
  | S fuel =>
      match cl with
      | None => Some (n + N.of_nat (length r))
      | Some kl =>
          match cr with
          | None => Some (n + N.of_nat (length l))
          | Some kr =>
              match key_cmp kl kr with
              | Lt => diff_loop fuel (hd_error l) (tl l) (Some kr) r (n + 1)
              | Gt => diff_loop fuel (Some kl) l (hd_error r) (tl r) (n + 1)
              | Eq => diff_loop fuel (hd_error l) (tl l) (hd_error r) (tl r) n
              end
          end
      end
  end.

(* diff.rs:9-128: what the command reports *)
Inductive diff_result : Type :=
| DiffOk                      (* Ok(()) *)
| DiffNoPackets               (* bail!("no packets in left or right") *)
| DiffCount (n : N).          (* bail!("{n} packet differences") *)
Definition diff_cmd (csum : list N -> N) (left right : list (result packet)) : outcome diff_result :=
  let* kl := diff_keys csum (keep_ok left) in
  let* kr := diff_keys csum (keep_ok right) in
  if is_nil kl && is_nil kr then Val DiffNoPackets else
  let l := key_sort kl in
  let r := key_sort kr in
  match diff_loop (S (length l + length r)) (hd_error l) (tl l) (hd_error r) (tl r) 0 with
  | None => Panic
  | Some 0 => Val DiffOk
  | Some n => Val (DiffCount n)
  end.

(* diff.rs:69-122: the rows printed by the same loop (print_left, print_right at 69-80), true for the
   left column *)
Fixpoint diff_rows (fuel : nat) (cl : option key) (l : list key) (cr : option key) (r : list key)
    : option (list (bool * key)) :=
  match fuel with
  | O => None
  | S fuel =>
      match cl with
      | None => Some (map (pair false) r)
      | Some kl =>
          match cr with
          | None => Some (map (pair true) l)
          | Some kr =>
              match key_cmp kl kr with
              | Lt => option_map (cons (true, kl)) (diff_rows fuel (hd_error l) (tl l) (Some kr) r)
              | Gt => option_map (cons (false, kr)) (diff_rows fuel (Some kl) l (hd_error r) (tl r))
              | Eq => diff_rows fuel (hd_error l) (tl l) (hd_error r) (tl r)
              end
          end
      end
  end.
(* diff.rs:10, 16-17, 29-30: apid_counts, after the left file and then after the right one *)
Definition count_left (m : amap (N * N)) (p : packet) : amap (N * N) :=
  let a := apid (p_header p) in
  let c := match aget a m with Some c => c | None => (0, 0) end in
  aset a (fst c + 1, snd c) m.
Definition count_right (m : amap (N * N)) (p : packet) : amap (N * N) :=
  let a := apid (p_header p) in
  let c := match aget a m with Some c => c | None => (0, 0) end in
  aset a (fst c, snd c + 1) m.

(* ---- info.rs ---- *)
(* info.rs:59-65 *)
Record isummary : Type := mkIsummary {
  i_total : N;
  i_missing : N;
  i_first : option Z;
  i_last : option Z;
  i_duration : Z }.
Definition isummary0 : isummary := mkIsummary 0 0 None None 0.

(* info.rs:120-128 and 131-140: one time added to a summary *)
Definition add_time (s : isummary) (t : Z) : isummary :=
  let f := match i_first s with None => t | Some c => Z.min t c end in
  let l := match i_last s with None => t | Some c => Z.max t c end in
  mkIsummary (i_total s) (i_missing s) (Some f) (Some l) (l - f).

Record istate : Type := mkIstate {
  is_seqid : amap N;
  is_apids : amap isummary;
  is_all : isummary }.

(* info.rs:94-145: the loop body. [time_of] is None for --timecode none. *)
Definition info_step (ovf : bool) (time_of : option (packet -> option Z)) (s : istate) (p : packet)
  : outcome istate :=
  let a := apid (p_header p) in
  let sq := sequence_id (p_header p) in
  let* missing := match aget a (is_seqid s) with
                  | None => Val 0
                  | Some last => missing_packets ovf sq last
                  end in
  let count s := mkIsummary (i_total s + 1) (i_missing s + missing) (i_first s) (i_last s) (i_duration s) in
  let all := count (is_all s) in
  let one := count (match aget a (is_apids s) with Some x => x | None => isummary0 end) in
  let t := if has_secondary_header (p_header p)
           then match time_of with Some f => f p | None => None end
           else None in
  let all := match t with Some t => add_time all t | None => all end in
  let one := match t with Some t => add_time one t | None => one end in
  Val (mkIstate (aset a sq (is_seqid s)) (aset a one (is_apids s)) all).
Fixpoint info_steps (ovf : bool) (time_of : option (packet -> option Z)) (s : istate)
    (ps : list packet) : outcome istate :=
  match ps with
  | [] => Val s
  | p :: ps => let* s' := info_step ovf time_of s p in info_steps ovf time_of s' ps
  end.
(* info.rs:147-148: sort_unstable_by_key over the distinct apids *)
Fixpoint apid_insert {V} (kv : N * V) (l : amap V) : amap V :=
  match l with
  | [] => [kv]
  | x :: r => if fst kv <=? fst x then kv :: l else x :: apid_insert kv r
  end.
Definition apid_sort {V} (l : amap V) : amap V := fold_right apid_insert [] l.
(* diff.rs:44-61: the rows printed with --verbose (main.rs:413-417), the apid and the two numbers (the third column is their
   difference as i32); apids.sort() over the distinct keys of the map *)
Definition diff_counts (left right : list packet) : amap (N * N) :=
  filter (fun r => negb (fst (snd r) =? snd (snd r)))
    (apid_sort (fold_left count_right right (fold_left count_left left []))).
(* diff.rs:9-128: everything diff prints, before its result: the --verbose rows and the table; nothing if
   there are no packets (diff.rs:40-42) or a file cannot be opened *)
Definition diff_output (csum : list N -> N) (show_counts : bool) (left right : list (result packet))
  : outcome (option (option (amap (N * N)) * list (bool * key))) :=
  let* kl := diff_keys csum (keep_ok left) in
  let* kr := diff_keys csum (keep_ok right) in
  if is_nil kl && is_nil kr then Val None else
  let l := key_sort kl in
  let r := key_sort kr in
  match diff_rows (S (length l + length r)) (hd_error l) (tl l) (hd_error r) (tl r) with
  | None => Panic
  | Some rows => Val (Some (if show_counts then Some (diff_counts (keep_ok left) (keep_ok right)) else None, rows))
  end.
(* info.rs:81-155 summarize *)
Definition summarize (ovf : bool) (time_of : option (packet -> option Z))
    (items : list (result packet)) : outcome (isummary * amap isummary) :=
  let* s := info_steps ovf time_of (mkIstate [] [] isummary0) (keep_ok items) in
  Val (is_all s, apid_sort (is_apids s)).

(* ---- frame.rs ---- *)
(* frame.rs:16-28 and 30-42 (Summary has the same fields, and the list of vcids) *)
Record finfo : Type := mkFinfo {
  fi_total_frames : N;
  fi_total_bytes : N;
  fi_missing : N;
  fi_corrected : N;
  fi_uncorrectable : N;
  fi_ok : N;
  fi_error : N;
  fi_not_performed : N }.
Definition finfo0 : finfo := mkFinfo 0 0 0 0 0 0 0 0.

(* frame.rs:104-136: what one frame adds, to the channel and to the summary alike *)
Definition finfo_add (i : finfo) (f : frame) : finfo :=
  let b n (c : bool) := if c then n + 1 else n in
  let is x := match f_integrity f, x with
              | Some IOk, IOk | Some ICorrected, ICorrected | Some IUncorrectable, IUncorrectable
              | Some INotCorrected, INotCorrected | Some IFailed, IFailed => true
              | _, _ => false end in
  mkFinfo (fi_total_frames i + 1)
          (fi_total_bytes i + N.of_nat (length (f_data f)))
          (fi_missing i + f_missing f)
          (b (fi_corrected i) (is ICorrected))
          (b (fi_uncorrectable i) (is IUncorrectable || is INotCorrected))
          (b (fi_ok i) (is IOk))
          (b (fi_error i) (is IFailed))
          (b (fi_not_performed i) (is_none (f_integrity f))).

(* frame.rs:95-103 *)
Definition frame_selected (keep_fill : bool) (include exclude : list N) (f : frame) : bool :=
  let v := v_vcid (f_header f) in
  if frame_is_fill f && negb keep_fill then false
  else if negb (is_nil include) && negb (mem v include) then false
  else if negb (is_nil exclude) && mem v exclude then false
  else true.
(* frame.rs:137-142 *)
Definition frame_written (f : frame) : bool :=
  match f_integrity f with
  | Some IUncorrectable | Some INotCorrected | Some IFailed => false
  | _ => true
  end.

Record fcmd : Type := mkFcmd { fc_all : finfo; fc_vcids : amap finfo; fc_out : list N }.
(* frame.rs:94-147; [has_output] is whether --output was given *)
Fixpoint frame_loop (len : nat) (keep_fill : bool) (include exclude : list N) (has_output : bool)
    (frames : list frame) (s : fcmd) : outcome fcmd :=
  match frames with
  | [] => Val s
  | f :: fs =>
      if negb (frame_selected keep_fill include exclude f)
      then frame_loop len keep_fill include exclude has_output fs s
      else
        let v := v_vcid (f_header f) in
        let ch := match aget v (fc_vcids s) with Some i => i | None => finfo0 end in
        let all := finfo_add (fc_all s) f in
        let vcids := aset v (finfo_add ch f) (fc_vcids s) in
        if negb (frame_written f) || negb has_output
        then frame_loop len keep_fill include exclude has_output fs (mkFcmd all vcids (fc_out s))
        else
          let* d := slice (f_data f) 0 len in
          frame_loop len keep_fill include exclude has_output fs (mkFcmd all vcids (fc_out s ++ d))
  end.

(* frame.rs:64-83: the pipeline that frame_aos builds *)
Definition RS_PARITY_LEN : nat := 32.
Definition frame_pipeline (len : nat) (pn : bool) (rs : option nat)
    (rs_detect rs_correct : bool) (rs_virtualfill : nat) (rs_threads : option nat)
    (rs_buffersize : nat) : pipeline :=
  let interleave := match rs with Some i => i | None => 0%nat end in
  let p := pipeline_new (len + RS_PARITY_LEN * interleave)%nat in
  let p := if negb pn then pipeline_without_derandomization p else p in
  match rs with
  | None => p
  | Some i =>
      let o := rs_opts_new i in
      let o := ro_with_buffer_size o rs_buffersize in
      let o := ro_with_correction o rs_correct in
      let o := ro_with_detection o (rs_detect || rs_correct) in
      let o := if negb (rs_virtualfill =? 0)%nat then ro_with_virtual_fill o rs_virtualfill else o in
      let o := match rs_threads with Some n => ro_with_num_threads o n | None => o end in
      pipeline_with_rs p o
  end.

(* frame.rs:85-154: over the frames that pipeline.start yields *)
Definition frame_cmd (len : nat) (keep_fill : bool) (include exclude : list N) (has_output : bool)
    (frames : list frame) : outcome (finfo * amap finfo * list N) :=
  let* s := frame_loop len keep_fill include exclude has_output frames (mkFcmd finfo0 [] []) in
  Val (fc_all s, apid_sort (fc_vcids s), fc_out s).
