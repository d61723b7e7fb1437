(* Model of Merger::merge (ccsds-lib/src/spacepacket/merge.rs:88-182) with the library's TimecodeDecoder and times of both
   time scales: CDS times are UTC, CUC times are TAI (timecode.rs:131, 181), the limits from and to are UTC (merge.rs:185-190).
   How hifitime compares epochs of different scales is external: [instant e] stands for the place of e in hifitime's order, so
   that e < e' is instant e < instant e' and e == e' is instant e = instant e' (for one scale this is the order of M_MergeTd.v
   when [instant] is increasing on it). Simplified: a Ptr has the instant of its epoch in place of the epoch; the code uses
   the epoch only in comparisons, for hashing and in log output. Pointers that compare equal have the same apid, hence the same
   format and the same scale, so that no agreement of hifitime's Hash with == across scales is needed. *)
From Verif Require Import Base M_Packet M_Group M_Timecode M_Reader M_Merge.
Open Scope nat_scope.

Section Any.
Context (instant : epoch -> Z).
(* merge.rs:124; Err is None *)
Definition time_any (ovf : bool) (td : tdecoder) (p : packet) : outcome (option Z) :=
  match tdecoder_decode ovf td p with
  | Panic => Panic
  | Val (Err _) => Val None
  | Val (Ok e) => Val (Some (instant e))
  end.
(* merge.rs:89-90, 185-190 *)
Definition from_any (m : merger) : Z := instant (mkEpoch UTC (from_nanos m)).
Definition to_any (m : merger) : Z := instant (mkEpoch UTC (to_nanos m)).
(* merge.rs:104-158: the closure; [mg_time m] is not used *)
Definition group_ptr_any (ovf : bool) (td : tdecoder) (m : merger) (path : N) (g : pgroup) : outcome (option ptr) :=
  match g_packets g with
  | [] => Val None
  | first :: _ =>
      if negb (is_first first || is_standalone first) then Val None else
      let* time := time_any ovf td first in
      match time with
      | None => Val None
      | Some t =>
          if (t <? from_any m)%Z then Val None else
          if (to_any m <=? t)%Z then Val None else
          let a := apid (p_header first) in
          if negb (match apid_set m with [] => true | _ => false end)
             && negb (existsb (N.eqb a) (apid_set m)) then Val None else
          Val (Some (mkPtr path (p_offset first)
                  (list_sum (map (fun p => total_len (p_header p)) (g_packets g)))
                  t a (sequence_id (p_header first)) (order_of m a)))
      end
  end.
Fixpoint group_ptrs_any (ovf : bool) (td : tdecoder) (m : merger) (path : N) (gs : list pgroup) : outcome (list ptr) :=
  match gs with
  | [] => Val []
  | g :: gs =>
      let* p := group_ptr_any ovf td m path g in
      let* ps := group_ptrs_any ovf td m path gs in
      Val (match p with Some p => p :: ps | None => ps end)
  end.
(* merge.rs:100-162 *)
Definition file_pointers_any (ovf : bool) (td : tdecoder) (m : merger) (path : N) (bs : list N) : outcome (list ptr) :=
  let* ps := file_packets bs in
  let* gs := file_groups ps in
  let* l := group_ptrs_any ovf td m path gs in
  Val (set_collect l).
Fixpoint build_index_any (ovf : bool) (td : tdecoder) (m : merger) (readers : list (N * list N)) (index : list ptr) : outcome (list ptr) :=
  match readers with
  | [] => Val index
  | (path, bs) :: rest =>
      let* pointers := file_pointers_any ovf td m path bs in
      build_index_any ovf td m rest (set_union index pointers)
  end.
(* merge.rs:88-182. The index is complete before the first byte is written. *)
Definition merge_any (ovf : bool) (td : tdecoder) (h : hash_order) (fs : files) (m : merger) : outcome (result (list N)) :=
  match open_readers fs (mg_paths m) [] with
  | Err e => Val (Err e)
  | Ok readers =>
      let* index := build_index_any ovf td m (ho_readers h readers) [] in
      write_groups readers (sort_index (ho_index h index))
  end.
End Any.
