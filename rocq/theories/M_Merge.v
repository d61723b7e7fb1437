(* Model of ccsds-lib/src/spacepacket/merge.rs *)
From Verif Require Import Base M_Reader M_Packet M_Group M_Timecode.
Open Scope nat_scope.

(* Collect what an iterator returns (Iterator::collect). Running out of fuel would be Panic
   as well; with the fuel used here it does not happen: C78_reading and file_groups_ok. *)
Definition collect_run {S A} (next : S -> outcome (option A * S)) (fuel : nat) (s : S)
  : outcome (list A) :=
  match run next fuel s with
  | (l, Finished) => Val l
  | _ => Panic
  end.

Fixpoint keep_ok {A} (l : list (result A)) : list A :=
  match l with
  | [] => []
  | Ok a :: l => a :: keep_ok l
  | Err _ :: l => keep_ok l
  end.

(* merge.rs:101: decode_packets(reader).filter_map(Result::ok) on a regular file with contents bs,
   read without I/O errors *)
Definition file_packets (bs : list N) : outcome (list packet) :=
  let* items := collect_run pdec_next (S (S (length bs))) (pdec_new (reader_of bs)) in
  Val (keep_ok items).
(* merge.rs:102-103: collect_groups(packets).filter_map(Result::ok) *)
Definition file_groups (ps : list packet) : outcome (list pgroup) :=
  collect_run giter_next (S (S (length ps))) (giter_new ps).

(* merge.rs:192-205 *)
Record ptr : Type := mkPtr {
  pt_path : N;
  pt_offset : nat;
  pt_size : nat;
  pt_time : Z;
  pt_apid : N;
  pt_seqid : N;
  pt_order : Z }.

(* merge.rs:215-219 PartialEq; Hash (207-213) agrees with it *)
Definition ptr_eqb (a b : ptr) : bool :=
  (pt_apid a =? pt_apid b)%N && (pt_time a =? pt_time b)%Z && (pt_seqid a =? pt_seqid b)%N.

(* HashSet::insert: an equal element already present is kept *)
Definition set_insert (s : list ptr) (p : ptr) : list ptr :=
  if existsb (ptr_eqb p) s then s else s ++ [p].
(* collect::<HashSet<_>>() *)
Definition set_collect (l : list ptr) : list ptr := fold_left set_insert l [].
(* merge.rs:161: index.union(&pointers).cloned().collect(). std's HashSet::union iterates the larger set
   (self on a tie) and then the elements of the other that are not in it, so of two equal elements the
   one in the larger set stays. *)
Definition set_union (index pointers : list ptr) : list ptr :=
  if length pointers <=? length index
  then fold_left set_insert pointers index
  else fold_left set_insert index pointers.

(* merge.rs:29-37 Merger. Times are nanoseconds since 1900-01-01 in one time scale; [mg_time] is
   time_decoder.decode, None standing for Err. *)
Record merger : Type := mkMerger {
  mg_paths : list N;
  mg_time : packet -> option Z;
  mg_order : amap Z;
  mg_from : option N;
  mg_to : option N;
  mg_apids : option (list N) }.
(* merge.rs:46-85 *)
Definition merger_new (paths : list N) (time_of : packet -> option Z) : merger :=
  mkMerger paths time_of [] None None None.
Fixpoint order_insert (i : nat) (order : list N) (m : amap Z) : amap Z :=
  match order with
  | [] => m
  | a :: rest => order_insert (S i) rest (aset a (4096 - Z.of_nat i)%Z m)
  end.
Definition with_apid_order (m : merger) (order : list N) : merger :=
  mkMerger (mg_paths m) (mg_time m) (order_insert 0 order (mg_order m)) (mg_from m) (mg_to m)
           (mg_apids m).
Definition with_from (m : merger) (micros : N) : merger :=
  mkMerger (mg_paths m) (mg_time m) (mg_order m) (Some micros) (mg_to m) (mg_apids m).
Definition with_to (m : merger) (micros : N) : merger :=
  mkMerger (mg_paths m) (mg_time m) (mg_order m) (mg_from m) (Some micros) (mg_apids m).
Definition with_apids (m : merger) (apids : list N) : merger :=
  mkMerger (mg_paths m) (mg_time m) (mg_order m) (mg_from m) (mg_to m) (Some apids).

(* merge.rs:185-190 epoch_or_default: micros since 1900, or January 1st of 1900 / 2200 *)
Definition NANOS_1900 : Z := 0.
Definition NANOS_2200 : Z := 109573 * 86400000000000.
Definition from_nanos (m : merger) : Z :=
  match mg_from m with Some us => Z.of_N us * 1000 | None => NANOS_1900 end.
Definition to_nanos (m : merger) : Z :=
  match mg_to m with Some us => Z.of_N us * 1000 | None => NANOS_2200 end.
(* merge.rs:92 *)
Definition apid_set (m : merger) : list N := match mg_apids m with Some l => l | None => [] end.
(* merge.rs:153-156 *)
Definition order_of (m : merger) (a : N) : Z :=
  match aget a (mg_order m) with Some o => o | None => Z.of_N a end.

(* merge.rs:104-158: the closure *)
Definition group_ptr (m : merger) (path : N) (g : pgroup) : option ptr :=
  match g_packets g with
  | [] => None
  | first :: _ =>
      if negb (is_first first || is_standalone first) then None else
      match mg_time m first with
      | None => None
      | Some t =>
          if (t <? from_nanos m)%Z then None else
          if (to_nanos m <=? t)%Z then None else
          let a := apid (p_header first) in
          if negb (match apid_set m with [] => true | _ => false end)
             && negb (existsb (N.eqb a) (apid_set m)) then None else
          Some (mkPtr path (p_offset first)
                  (list_sum (map (fun p => total_len (p_header p)) (g_packets g)))
                  t a (sequence_id (p_header first)) (order_of m a))
      end
  end.

Fixpoint filter_map_opt {A B} (f : A -> option B) (l : list A) : list B :=
  match l with
  | [] => []
  | a :: l => match f a with Some b => b :: filter_map_opt f l | None => filter_map_opt f l end
  end.

(* files: contents by path; None = open fails *)
Definition files := N -> option (list N).

(* merge.rs:100-162 for one file *)
Definition file_pointers (m : merger) (path : N) (bs : list N) : outcome (list ptr) :=
  let* ps := file_packets bs in
  let* gs := file_groups ps in
  Val (set_collect (filter_map_opt (group_ptr m path) gs)).

Fixpoint build_index (m : merger) (readers : list (N * list N)) (index : list ptr)
  : outcome (list ptr) :=
  match readers with
  | [] => Val index
  | (path, bs) :: rest =>
      let* pointers := file_pointers m path bs in
      build_index m rest (set_union index pointers)
  end.

(* merge.rs:166: Vec::sort_by_key is a stable sort *)
Definition key_leb (a b : ptr) : bool :=
  (pt_time a <? pt_time b)%Z || ((pt_time a =? pt_time b)%Z && (pt_order a <=? pt_order b)%Z).
Fixpoint insert_sorted (p : ptr) (l : list ptr) : list ptr :=
  match l with
  | [] => [p]
  | q :: l' => if key_leb p q then p :: l else q :: insert_sorted p l'
  end.
Definition sort_index (l : list ptr) : list ptr := fold_right insert_sorted [] l.

(* merge.rs:168-179: seek, read_exact and write each group *)
Fixpoint write_groups (readers : amap (list N)) (l : list ptr) : outcome (result (list N)) :=
  match l with
  | [] => Val (Ok [])
  | p :: rest =>
      match aget (pt_path p) readers with
      | None => Panic                                     (* unwrap *)
      | Some bs =>
          if length (skipn (pt_offset p) bs) <? pt_size p
          then Val (Err (Io UnexpectedEof))
          else
            let? out := write_groups readers rest in
            Val (Ok (firstn (pt_size p) (skipn (pt_offset p) bs) ++ out))
      end
  end.

(* merge.rs:93-97: open all the paths into a HashMap; a path listed twice has one reader *)
Fixpoint open_readers (fs : files) (paths : list N) (m : amap (list N))
  : result (amap (list N)) :=
  match paths with
  | [] => Ok m
  | p :: rest =>
      match fs p with
      | None => Err (Io (OtherIo 0%N))
      | Some bs => open_readers fs rest (aset p bs m)
      end
  end.

(* The iteration orders of the hash tables: any reordering of their elements *)
Record hash_order : Type := mkHashOrder {
  ho_readers : amap (list N) -> amap (list N);       (* merge.rs:100 *)
  ho_index : list ptr -> list ptr }.                 (* merge.rs:164 *)

(* merge.rs:88-182 merge: the bytes written to writer. (On an error the bytes written before it are
   not represented.) *)
Definition merge (h : hash_order) (fs : files) (m : merger) : outcome (result (list N)) :=
  match open_readers fs (mg_paths m) [] with
  | Err e => Val (Err e)
  | Ok readers =>
      let* index := build_index m (ho_readers h readers) [] in
      write_groups readers (sort_index (ho_index h index))
  end.

(* The time decoder of the CLI (ccsds-cmd/src/main.rs:365-368): CDS with 2 byte days and 2 byte submillis *)
Definition cds_time (p : packet) : option Z :=
  match tdecoder_decode true (tdecoder_new (Cds 2 2)) p with
  | Val (Ok e) => Some (ep_nanos e)
  | _ => None
  end.
