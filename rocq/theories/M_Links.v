(* Model of the commands of ccsds-cmd on a file system with links: several paths may lead to one file. M_Main.v has a file
   for every path. *)
From Verif Require Import Base M_Reader M_Packet M_Group M_Timecode M_Merge M_Cli M_Main M_FrameLive M_Live.
Open Scope N_scope.

(* Every path leads, through links, to a place, where there is a file or not. Hard links are paths that lead to one place; a
   symbolic link leads where its target does; one whose target does not exist leads to a place without a file, which
   File::create makes there. Links themselves do not change. *)
Record disk : Type := mkDisk { d_place : N -> N; d_files : fsys }.
(* Path::exists, std::fs::exists, File::open: they follow links *)
Definition contents (d : disk) (path : N) : option (list N) := aget (d_place d path) (d_files d).
Definition exists_path (d : disk) (path : N) : bool := negb (is_none (contents d path)).
(* File::create and all that is then written *)
Definition put (d : disk) (path : N) (bs : list N) : disk := mkDisk (d_place d) (aset (d_place d path) bs (d_files d)).

(* main.rs:340-379 and ccsds-cmd/src/merge.rs:15-51. The readers are kept in a HashMap by path (spacepacket/merge.rs:94-98), so
   that a file given under two paths is opened twice. *)
Definition merge_on_disk (h : hash_order) (creatable : N -> bool) (d : disk) (a : merge_args) : outcome (exit * disk) :=
  if negb (ma_clobber a) && exists_path d (ma_output a) then Val (Failure, d) else
  match (match ma_apid_order_name a with
         | Some name => apid_order name
         | None => Some (match ma_apid_order a with Some o => o | None => [] end)
         end) with
  | None => Val (Failure, d)
  | Some order =>
      if negb (creatable (ma_output a)) then Val (Failure, d) else
      let d := put d (ma_output a) [] in
      if is_nil (ma_inputs a) then Val (Failure, d) else
      let m := merger_of_args a order in
      let* r := merge h (contents d) m in
      let* w := merge_written h (contents d) m in
      Val (match r with Ok _ => Success | Err _ => Failure end, put d (ma_output a) w)
  end.

(* main.rs:385-411 *)
Definition filter_on_disk (creatable : N -> bool) (d : disk) (a : filter_args) : outcome (exit * disk) :=
  if negb (fa_clobber a) && exists_path d (fa_output a) then Val (Failure, d) else
  match contents d (fa_input a) with
  | None => Val (Failure, d)
  | Some _ =>
      if negb (creatable (fa_output a)) then Val (Failure, d) else
      let d := put d (fa_output a) [] in
      let items := match contents d (fa_input a) with
                   | Some bs => file_items bs
                   | None => Val []
                   end in
      let* r := filter_main items (fa_include a) (fa_exclude a) (fa_before a) (fa_after a) in
      match r with
      | None => Val (Failure, d)
      | Some out => Val (Success, put d (fa_output a) out)
      end
  end.

(* diff.rs:9-128, info.rs:81-155 *)
Definition diff_on_disk (csum : list N -> N) (d : disk) (verbose : bool) (left right : N) :=
  diff_command csum (d_files d) verbose (d_place d left) (d_place d right).
Definition info_on_disk (ovf : bool) (d : disk) (input : N) (cds : bool) := info_command ovf (d_files d) (d_place d input) cds.

(* main.rs:418-483, frame.rs:85-92 without Reed-Solomon: the input as it is when it is read, which is after the output was
   created *)
Definition framing_input (d : disk) (a : framing_args) : option reader :=
  option_map reader_of (contents (match fr_output a with Some o => put d o [] | None => d end) (fr_input a)).
