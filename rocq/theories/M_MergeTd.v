(* Model of Merger::merge (ccsds-lib/src/spacepacket/merge.rs:88-182) with the library's TimecodeDecoder in place of the
   function [mg_time] of M_Merge.v, so that its panics are the merger's. For decoders that have only CDS formats: all times
   are then in one time scale (UTC), as M_Merge.v compares them. *)
From Verif Require Import Base M_Packet M_Group M_Timecode M_Reader M_Merge.
Open Scope nat_scope.

(* merge.rs:124: Err stands for None; nanoseconds since 1900 *)
Definition td_time (ovf : bool) (td : tdecoder) (p : packet) : outcome (option Z) :=
  match tdecoder_decode ovf td p with
  | Panic => Panic
  | Val (Err _) => Val None
  | Val (Ok e) => Val (Some (ep_nanos e))
  end.
(* merge.rs:104-158: the closure; [mg_time m] is not used *)
Definition group_ptr_td (ovf : bool) (td : tdecoder) (m : merger) (path : N) (g : pgroup) : outcome (option ptr) :=
  match g_packets g with
  | [] => Val None
  | first :: _ =>
      if negb (is_first first || is_standalone first) then Val None else
      let* time := td_time ovf td first in
      match time with
      | None => Val None
      | Some t =>
          if (t <? from_nanos m)%Z then Val None else
          if (to_nanos m <=? t)%Z then Val None else
          let a := apid (p_header first) in
          if negb (match apid_set m with [] => true | _ => false end)
             && negb (existsb (N.eqb a) (apid_set m)) then Val None else
          Val (Some (mkPtr path (p_offset first)
                  (list_sum (map (fun p => total_len (p_header p)) (g_packets g)))
                  t a (sequence_id (p_header first)) (order_of m a)))
      end
  end.
Fixpoint group_ptrs_td (ovf : bool) (td : tdecoder) (m : merger) (path : N) (gs : list pgroup) : outcome (list ptr) :=
  match gs with
  | [] => Val []
  | g :: gs =>
      let* p := group_ptr_td ovf td m path g in
      let* ps := group_ptrs_td ovf td m path gs in
      Val (match p with Some p => p :: ps | None => ps end)
  end.
(* merge.rs:100-162 *)
Definition file_pointers_td (ovf : bool) (td : tdecoder) (m : merger) (path : N) (bs : list N) : outcome (list ptr) :=
  let* ps := file_packets bs in
  let* gs := file_groups ps in
  let* l := group_ptrs_td ovf td m path gs in
  Val (set_collect l).
Fixpoint build_index_td (ovf : bool) (td : tdecoder) (m : merger) (readers : list (N * list N)) (index : list ptr) : outcome (list ptr) :=
  match readers with
  | [] => Val index
  | (path, bs) :: rest =>
      let* pointers := file_pointers_td ovf td m path bs in
      build_index_td ovf td m rest (set_union index pointers)
  end.
(* merge.rs:88-182. The index is complete before the first byte is written. *)
Definition merge_td (ovf : bool) (td : tdecoder) (h : hash_order) (fs : files) (m : merger) : outcome (result (list N)) :=
  match open_readers fs (mg_paths m) [] with
  | Err e => Val (Err e)
  | Ok readers =>
      let* index := build_index_td ovf td m (ho_readers h readers) [] in
      write_groups readers (sort_index (ho_index h index))
  end.
