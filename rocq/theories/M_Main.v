(* Model of the main function of the ccsds command and of what it does to files:
   ccsds-cmd/src/main.rs:310-493, merge.rs, config.rs. Also the file functions of ccsds-py/src/lib.rs.
   Not represented: argument parsing by clap, logging, stdin and TCP input, rendering of reports, I/O errors
   while reading or writing a file that was opened (M_Write.v has failing writes). Two paths are the same file iff they are equal. *)
From Coq Require Import Floats.SpecFloat.
From Verif Require Import Base M_Reader M_Packet M_Group M_Timecode M_Merge M_Frame M_ReedSolomon M_Pipeline M_Cli.
Open Scope N_scope.

(* files by path *)
Definition fsys : Type := amap (list N).
(* the exit status: main returned Ok or Err *)
Inductive exit : Type := Success | Failure.
Definition exists_file (fs : fsys) (p : N) : bool := negb (is_none (aget p fs)).

(* decode_packets on a file with contents bs, read to its end *)
Definition file_items (bs : list N) : outcome (list (result packet)) :=
  collect_run pdec_next (S (S (length bs))) (pdec_new (reader_of bs)).

(* merge.rs:7-13 apid_order; the name as code points *)
Definition JPSS_VIIRS : list N := [106; 112; 115; 115; 45; 118; 105; 105; 114; 115].
Definition apid_order (name : list N) : option (list N) :=
  if list_eq_dec N.eq_dec name JPSS_VIIRS then Some [826; 821] else None.

(* merge.rs:31-32: (dt.to_utc_seconds() * 1_000_000.0) as u64, of the f64 that hifitime returned *)
Definition f64_million : f64 := S754_finite false 8589934592000000 (-33).
Definition to_micros (secs : f64) : N := u64_of_f64 (SFmul 53 1024 secs f64_million).

Record merge_args : Type := mkMergeArgs {
  ma_apid_order : option (list N);
  ma_apid_order_name : option (list N);
  ma_from : option f64;              (* to_utc_seconds() of the argument *)
  ma_to : option f64;
  ma_apids : list N;
  ma_clobber : bool;
  ma_output : N;
  ma_inputs : list N }.

(* merge.rs:34-46: the Merger that is built *)
Definition merger_of_args (a : merge_args) (order : list N) : merger :=
  let m := merger_new (ma_inputs a) cds_time in
  let m := with_apid_order m order in
  let m := match ma_from a with Some s => with_from m (to_micros s) | None => m end in
  let m := match ma_to a with Some s => with_to m (to_micros s) | None => m end in
  with_apids m (ma_apids a).

(* spacepacket/merge.rs:168-179: the bytes written until all groups are written or one cannot be read *)
Fixpoint groups_written (readers : amap (list N)) (l : list ptr) : list N :=
  match l with
  | [] => []
  | p :: rest =>
      match aget (pt_path p) readers with
      | None => []
      | Some bs => if (length (skipn (pt_offset p) bs) <? pt_size p)%nat then []
                   else firstn (pt_size p) (skipn (pt_offset p) bs) ++ groups_written readers rest
      end
  end.
(* spacepacket/merge.rs:88-182: what the writer received, also when the merge fails *)
Definition merge_written (h : hash_order) (fs : files) (m : merger) : outcome (list N) :=
  match open_readers fs (mg_paths m) [] with
  | Err e => Val []
  | Ok readers =>
      let* index := build_index m (ho_readers h readers) [] in
      Val (groups_written readers (sort_index (ho_index h index)))
  end.

(* main.rs:329-379 and merge.rs:15-51. [creatable p]: File::create p succeeds. *)
Definition merge_command (h : hash_order) (creatable : N -> bool) (fs : fsys) (a : merge_args)
  : outcome (exit * fsys) :=
  if negb (ma_clobber a) && exists_file fs (ma_output a) then Val (Failure, fs) else
  match (match ma_apid_order_name a with
         | Some name => apid_order name
         | None => Some (match ma_apid_order a with Some o => o | None => [] end)
         end) with
  | None => Val (Failure, fs)
  | Some order =>
      if negb (creatable (ma_output a)) then Val (Failure, fs) else
      let fs := aset (ma_output a) [] fs in
      if is_nil (ma_inputs a) then Val (Failure, fs) else
      let m := merger_of_args a order in
      let* r := merge h (fun p => aget p fs) m in
      let* w := merge_written h (fun p => aget p fs) m in
      Val (match r with Ok _ => Success | Err _ => Failure end, aset (ma_output a) w fs)
  end.

Record filter_args : Type := mkFilterArgs {
  fa_include : list (list N);
  fa_exclude : list (list N);
  fa_before : option Z;
  fa_after : option Z;
  fa_clobber : bool;
  fa_output : N;
  fa_input : N }.

(* main.rs:385-411. The input was opened before the output is created; if they are the same file it is
   empty when it is read. *)
Definition filter_command (creatable : N -> bool) (fs : fsys) (a : filter_args) : outcome (exit * fsys) :=
  if negb (fa_clobber a) && exists_file fs (fa_output a) then Val (Failure, fs) else
  match aget (fa_input a) fs with
  | None => Val (Failure, fs)
  | Some _ =>
      if negb (creatable (fa_output a)) then Val (Failure, fs) else
      let fs := aset (fa_output a) [] fs in
      let items := match aget (fa_input a) fs with
                   | Some bs => file_items bs
                   | None => Val []
                   end in
      let* r := filter_main items (fa_include a) (fa_exclude a) (fa_before a) (fa_after a) in
      match r with
      | None => Val (Failure, fs)
      | Some out => Val (Success, aset (fa_output a) out fs)
      end
  end.

(* config.rs:8-24, as deserialized; scid and type are dropped *)
Record config : Type := mkConfig {
  cfg_asm : option (list N);
  cfg_length : nat;
  cfg_pn : bool;
  cfg_rs : option (nat * nat) }.     (* interleave, virtualfill *)

Record framing_args : Type := mkFramingArgs {
  fr_config : option config;
  fr_length : nat;
  fr_pn : bool;
  fr_keep_fill : bool;
  fr_rs : option nat;                (* u8 *)
  fr_rs_detect : bool;
  fr_rs_correct : bool;
  fr_rs_virtualfill : nat;
  fr_rs_threads : option nat;
  fr_rs_buffersize : nat;
  fr_include : list (list N);
  fr_exclude : list (list N);
  fr_output : option N;
  fr_input : N }.

(* main.rs:419-465 up to the call of frame_aos: the length, the pipeline that will be built (frame.rs:64-83),
   and the vcid lists; None = an error before any file is touched. The config file, if any, is
   already read. *)
Definition framing_setup (a : framing_args) : option (nat * pipeline * list N * list N) :=
  match parse_number_ranges (fr_include a), parse_number_ranges (fr_exclude a) with
  | Some i, Some e =>
      let '(len, pn, rs, vfill) :=
        match fr_config a with
        | None => (fr_length a, fr_pn a, fr_rs a, fr_rs_virtualfill a)
        | Some c =>
            match cfg_rs c with
            | Some (il, vf) => (cfg_length c, cfg_pn c, Some (il mod 256)%nat, vf)
            | None => (cfg_length c, cfg_pn c, fr_rs a, fr_rs_virtualfill a)
            end
        end in
      if (len =? 0)%nat then None else
      Some (len, frame_pipeline len pn rs (fr_rs_detect a) (fr_rs_correct a) vfill (fr_rs_threads a)
                   (fr_rs_buffersize a), to_u16s i, to_u16s e)
  | _, _ => None
  end.

(* main.rs:419-493 and frame.rs:85-154 for an input file that is not the output file, over the frames that
   the pipeline yields on it: exit status, files afterwards, summary. A missing input, which is taken for a TCP
   address (main.rs:44-55), and runs that panic have no rule. --summary is in M_Stdout.v. *)
Inductive framing_command (ovf : bool) (k : codec) (nthreads : nat) (creatable : N -> bool) (fs : fsys) (a : framing_args)
  : exit -> fsys -> option (finfo * amap finfo) -> Prop :=
| framing_bad_args :
    framing_setup a = None -> framing_command ovf k nthreads creatable fs a Failure fs None
| framing_no_output : forall len p i e bs frames all rows out,
    framing_setup a = Some (len, p, i, e) -> aget (fr_input a) fs = Some bs ->
    fr_output a = None ->
    pipeline_start ovf k nthreads p (reader_of bs) frames ->
    frame_cmd len (fr_keep_fill a) i e false frames = Val (all, rows, out) ->
    framing_command ovf k nthreads creatable fs a Success fs (Some (all, rows))
| framing_output : forall len p i e bs frames all rows out o,
    framing_setup a = Some (len, p, i, e) -> aget (fr_input a) fs = Some bs ->
    fr_output a = Some o -> creatable o = true -> o <> fr_input a ->
    pipeline_start ovf k nthreads p (reader_of bs) frames ->
    frame_cmd len (fr_keep_fill a) i e true frames = Val (all, rows, out) ->
    framing_command ovf k nthreads creatable fs a Success (aset o out fs) (Some (all, rows))
| framing_cannot_create : forall len p i e bs o,
    framing_setup a = Some (len, p, i, e) -> aget (fr_input a) fs = Some bs ->
    fr_output a = Some o -> creatable o = false ->
    framing_command ovf k nthreads creatable fs a Failure fs None.

(* info.rs:81-155 and diff.rs:9-128 on files: both only read *)
Definition info_command (ovf : bool) (fs : fsys) (input : N) (cds : bool)
  : outcome (option (isummary * amap isummary)) :=
  match aget input fs with
  | None => Val None
  | Some bs =>
      let* items := file_items bs in
      let* r := summarize ovf (if cds then Some cds_time else None) items in
      Val (Some r)
  end.
Definition diff_command (csum : list N -> N) (fs : fsys) (verbose : bool) (left right : N)
  : outcome (option (option (option (amap (N * N)) * list (bool * key)) * diff_result)) :=
  match aget left fs with
  | None => Val None
  | Some l =>
      let* li := file_items l in         (* all of it, before the other is opened *)
      match aget right fs with
      | None => Val None
      | Some r =>
          let* ri := file_items r in
          let* o := diff_output csum verbose li ri in
          let* d := diff_cmd csum li ri in
          Val (Some (o, d))
      end
  end.

(* ccsds-py/src/lib.rs:34-42 decode_packets and 71-76 decode_packet_groups: all the items of the Python
   iterator; None = the file cannot be opened (an exception) *)
Definition py_decode_packets (fs : fsys) (path : N) : outcome (option (list packet)) :=
  match aget path fs with
  | None => Val None
  | Some bs => let* ps := file_packets bs in Val (Some ps)
  end.
Definition py_decode_packet_groups (fs : fsys) (path : N) : outcome (option (list pgroup)) :=
  match aget path fs with
  | None => Val None
  | Some bs => let* ps := file_packets bs in let* gs := file_groups ps in Val (Some gs)
  end.
