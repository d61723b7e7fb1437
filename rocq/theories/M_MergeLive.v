(* Model of Merger::merge (spacepacket/merge.rs:88-182) and of the merge command (main.rs:340-379, ccsds-cmd/src/merge.rs:15-51)
   as they run, on inputs that may fail, change or go away while they are read, and on any writer. M_Merge.v and M_Write.v model
   them on files that stay as they are and read without errors. *)
From Verif Require Import Base M_Reader M_Packet M_Group M_Merge M_Cli M_Main M_Write M_Live.
Open Scope nat_scope.

(* An opened input (BufReader<File>, merge.rs:94-98): what reading it delivers at first, and what happens when the k-th of the
   groups that are copied (counted over all inputs) makes it seek to an offset: an error, or what reading delivers from there. *)
Record input : Type := mkInput { in_first : reader; in_again : nat -> nat -> iokind + reader }.

(* merge.rs:93-98 *)
Fixpoint open_inputs (ins : N -> option input) (paths : list N) (m : amap input) : result (amap input) :=
  match paths with
  | [] => Ok m
  | p :: rest =>
      match ins p with
      | None => Err (Io (OtherIo 0%N))
      | Some i => open_inputs ins rest (aset p i m)
      end
  end.

(* merge.rs:168-179: seek, read_exact into a fresh buffer, write_all, for each pointer; k is the number of those before *)
Fixpoint copy_groups (inputs : amap input) (k : nat) (l : list ptr) (w : writer) : outcome (result unit * writer) :=
  match l with
  | [] => Val (Ok tt, w)
  | p :: rest =>
      match aget (pt_path p) inputs with
      | None => Panic                                     (* unwrap *)
      | Some i =>
          match in_again i k (pt_offset p) with
          | inl e => Val (Err (Io e), w)
          | inr r =>
              match read_exact (pt_size p) r with
              | (_, Some e, _) => Val (Err (Io e), w)
              | (buf, None, _) =>
                  match write_all buf w with
                  | (Some e, w) => Val (Err (Io e), w)
                  | (None, w) => copy_groups inputs (S k) rest w
                  end
              end
          end
      end
  end.

(* The iteration orders of the hash tables, see hash_order in M_Merge.v *)
Record live_order : Type := mkLiveOrder {
  lo_inputs : amap input -> amap input;              (* merge.rs:101 *)
  lo_index : list ptr -> list ptr }.                 (* merge.rs:164 *)

(* merge.rs:88-182. None = still reading for the index after so many steps *)
Definition merge_live (h : live_order) (ins : N -> option input) (m : merger) (w : writer) (fuel : nat)
  : option (outcome (result unit * writer)) :=
  match open_inputs ins (mg_paths m) [] with
  | Err e => Some (Val (Err e, w))
  | Ok inputs =>
      match index_live m (map (fun x => (fst x, in_first (snd x))) (lo_inputs h inputs)) [] fuel with
      | None => None
      | Some Panic => Some Panic
      | Some (Val index) => Some (copy_groups inputs 0 (sort_index (lo_index h index)) w)
      end
  end.

(* main.rs:340-379 and ccsds-cmd/src/merge.rs:15-51: how the command stands after so many steps, and what is in the output file
   (None = it was not touched). [ins] is what the paths open as once the output has been created; writes to the output do as
   [evs] and [fin] say. *)
Definition merge_command_live (h : live_order) (creatable : N -> bool) (output_exists : bool) (ins : N -> option input)
    (evs : list wevent) (fin : wfinal) (a : merge_args) (fuel : nat) : progress * option (list N) :=
  if negb (ma_clobber a) && output_exists then (Exited Failure, None) else
  match (match ma_apid_order_name a with
         | Some name => apid_order name
         | None => Some (match ma_apid_order a with Some o => o | None => [] end)
         end) with
  | None => (Exited Failure, None)
  | Some order =>
      if negb (creatable (ma_output a)) then (Exited Failure, None) else
      if is_nil (ma_inputs a) then (Exited Failure, Some []) else
      match merge_live h ins (merger_of_args a order) (mkWriter evs fin []) fuel with
      | None => (Going, Some [])
      | Some Panic => (Aborted, Some [])
      | Some (Val (Ok _, w)) => (Exited Success, Some (w_got w))
      | Some (Val (Err _, w)) => (Exited Failure, Some (w_got w))
      end
  end.
