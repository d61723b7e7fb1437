(* Model of the loops of the ccsds command, of the merger's first half and of the Python iterators as they run: items are
   pulled one at a time from an input whose reads may fail now and then, or from some point on for ever, and that may make
   the packet decoder panic. M_Cli.v, M_Main.v and M_Merge.v model the same functions on the finished list of items. *)
From Verif Require Import Base M_Reader M_Packet M_Group M_Timecode M_Merge M_Cli M_Main.
Open Scope nat_scope.

(* std iterators. [next fuel s]: None = the call of next() has not returned after so many steps *)
Definition pullable (S A : Type) : Type := nat -> S -> option (outcome (option A * S)).
(* an iterator each call of which returns at once *)
Definition direct {S A} (next : S -> outcome (option A * S)) : pullable S A := fun _ s => Some (next s).
(* Iterator::filter_map *)
Fixpoint filter_mapped {S A B} (f : A -> option B) (next : pullable S A) (fuel : nat) (s : S)
  : option (outcome (option B * S)) :=
  match fuel with
  | O => None
  | S fuel =>
      match next fuel s with
      | None => None
      | Some Panic => Some Panic
      | Some (Val (None, s')) => Some (Val (None, s'))
      | Some (Val (Some a, s')) =>
          match f a with
          | Some b => Some (Val (Some b, s'))
          | None => filter_mapped f next fuel s'
          end
      end
  end.
(* Result::ok *)
Definition result_ok {A} (r : result A) : option A := match r with Ok a => Some a | Err _ => None end.
(* filter_map(Result::ok) *)
Definition ok_only {S A} (next : pullable S (result A)) : pullable S A := filter_mapped result_ok next.
(* map_while(Result::ok) *)
Definition while_ok {S A} (next : pullable S (result A)) : pullable S A := fun fuel s =>
  match next fuel s with
  | None => None
  | Some Panic => Some Panic
  | Some (Val (None, s')) => Some (Val (None, s'))
  | Some (Val (Some r, s')) => Some (Val (result_ok r, s'))
  end.
(* Iterator::map *)
Definition mapped {S A B} (f : A -> B) (next : pullable S A) : pullable S B := fun fuel s =>
  match next fuel s with
  | None => None
  | Some Panic => Some Panic
  | Some (Val (o, s')) => Some (Val (option_map f o, s'))
  end.

(* the items are returned and the iterator is then in state s' *)
Inductive hands {S A : Type} (next : pullable S A) : S -> list A -> S -> Prop :=
| hands_nil : forall s, hands next s [] s
| hands_item : forall n s s1 s' a l, next n s = Some (Val (Some a, s1)) -> hands next s1 l s' -> hands next s (a :: l) s'.

(* ccsds-lib/src/spacepacket/mod.rs:482-577 PacketGroupIter over any iterator of packets, in place of giter_next of
   M_Group.v, which is over a finite list *)
Record gather (S : Type) : Type := mkGather { ga_src : S; ga_cached : option packet; ga_done : bool }.
Arguments mkGather {S} _ _ _.
Arguments ga_src {S} _.
Arguments ga_cached {S} _.
Arguments ga_done {S} _.
(* mod.rs:521-561 *)
Fixpoint ga_loop {S} (next : pullable S packet) (fuel : nat) (src : S) (group : option pgroup)
  : option (outcome (option pgroup * option packet * S * bool)) :=
  match fuel with
  | O => None
  | S fuel =>
      match next fuel src with
      | None => None
      | Some Panic => Some Panic
      | Some (Val (None, src')) => Some (Val (group, None, src', true))
      | Some (Val (Some p, src')) =>
          match gi_step group p with
          | Panic => Some Panic
          | Val (inl (g, c)) => Some (Val (Some g, c, src', false))
          | Val (inr g) => ga_loop next fuel src' (Some g)
          end
      end
  end.
(* mod.rs:514-577 *)
Definition ga_next {S} (next : pullable S packet) : pullable (gather S) pgroup := fun fuel s =>
  if ga_done s then Some (Val (None, s)) else
  let first :=
    match ga_cached s with
    | Some p =>
        match gi_step None p with
        | Panic => Some Panic
        | Val (inl (g, c)) => Some (Val (Some g, c, ga_src s, false))
        | Val (inr g) => ga_loop next fuel (ga_src s) (Some g)
        end
    | None => ga_loop next fuel (ga_src s) None
    end in
  match first with
  | None => None
  | Some Panic => Some Panic
  | Some (Val (g, c, src', broke)) =>
      Some (Val
        (if broke then
           match g with
           | Some g => (Some g, mkGather src' c false)
           | None =>
               match c with
               | Some p => (Some (mkGroup (apid (p_header p)) [p]), mkGather src' None true)
               | None => (None, mkGather src' None true)
               end
           end
         else (g, mkGather src' c false)))
  end.

(* for x in iterator { body }: what the body made of its state so far, and where the loop is after so many steps *)
Inductive status : Type := Returned | Panicking | Running.
Fixpoint for_each {S A B} (next : pullable S A) (body : B -> A -> outcome B) (fuel : nat) (s : S) (b : B) : B * status :=
  match fuel with
  | O => (b, Running)
  | S fuel =>
      match next fuel s with
      | None => (b, Running)
      | Some Panic => (b, Panicking)
      | Some (Val (None, _)) => (b, Returned)
      | Some (Val (Some a, s')) =>
          match body b a with
          | Panic => (b, Panicking)
          | Val b' => for_each next body fuel s' b'
          end
      end
  end.
(* when only the result of the loop counts *)
Definition result_of {B C} (f : B -> outcome C) (r : B * status) : option (outcome C) :=
  match r with
  | (b, Returned) => Some (f b)
  | (_, Panicking) => Some Panic
  | (_, Running) => None
  end.

(* ccsds-py/src/lib.rs:34-42 decode_packets *)
Definition packets_live : pullable pdec packet := ok_only (direct pdec_next).
(* ccsds-py/src/lib.rs:71-76 decode_packet_groups, filter.rs:17-19, spacepacket/merge.rs:101-103 *)
Definition groups_live : pullable (gather pdec) pgroup := ga_next packets_live.
Definition groups_new (r : reader) : gather pdec := mkGather (pdec_new r) None false.

(* info.rs:81-155 *)
Definition info_live (ovf : bool) (time_of : option (packet -> option Z)) (r : reader) (fuel : nat)
  : option (outcome (isummary * amap isummary)) :=
  result_of (fun s => Val (is_all s, apid_sort (is_apids s)))
    (for_each packets_live (info_step ovf time_of) fuel (pdec_new r) (mkIstate [] [] isummary0)).

(* filter.rs:97-136: the writes are made one by one, to the file itself; the bytes written so far *)
Definition filter_body (include exclude : list N) (before after : option Z) (out : list N) (p : fptr) : outcome (list N) :=
  Val (if filter_keep include exclude before after p then out ++ fp_data p else out).
(* filter.rs:77-136, once there is a filter *)
Definition filter_live (include exclude : list N) (before after : option Z) (r : reader) (fuel : nat) : list N * status :=
  if negb (is_none before) || negb (is_none after)
  then for_each (filter_mapped fptr_of_group groups_live) (filter_body include exclude before after) fuel (groups_new r) []
  else for_each (mapped (fun p => mkFptr (p_data p) (apid (p_header p)) MIN_EPOCH) (while_ok (direct pdec_next)))
         (filter_body include exclude before after) fuel (pdec_new r) [].

(* diff.rs:13-38: one file, collected *)
Definition keys_live (csum : list N -> N) (r : reader) (fuel : nat) : option (outcome (list packet * list key)) :=
  result_of Val
    (for_each packets_live
       (fun b p => let* body := slice_from (p_data p) HDR_LEN in
                   Val (fst b ++ [p], snd b ++ [(apid (p_header p), sequence_id (p_header p), csum body)]))
       fuel (pdec_new r) ([], [])).
(* diff.rs:9-128: the left file is read to its end before the right one is opened. The result of the command; None
   of the second option = opening failed *)
Definition diff_live (csum : list N -> N) (left right : option reader) (fuel : nat) : option (outcome (option diff_result)) :=
  match left with
  | None => Some (Val None)
  | Some l =>
      match keys_live csum l fuel with
      | None => None
      | Some Panic => Some Panic
      | Some (Val (lp, _)) =>
          match right with
          | None => Some (Val None)
          | Some r =>
              match keys_live csum r fuel with
              | None => None
              | Some Panic => Some Panic
              | Some (Val (rp, _)) => Some (let* d := diff_cmd csum (map Ok lp) (map Ok rp) in Val (Some d))
              end
          end
      end
  end.

(* spacepacket/merge.rs:100-162, the files in the order in which the hash map gives them *)
Definition pointers_live (m : merger) (path : N) (r : reader) (fuel : nat) : option (outcome (list ptr)) :=
  result_of Val
    (for_each (filter_mapped (group_ptr m path) groups_live) (fun s p => Val (set_insert s p)) fuel (groups_new r) []).
Fixpoint index_live (m : merger) (readers : list (N * reader)) (index : list ptr) (fuel : nat) : option (outcome (list ptr)) :=
  match readers with
  | [] => Some (Val index)
  | (path, r) :: rest =>
      match pointers_live m path r fuel with
      | None => None
      | Some Panic => Some Panic
      | Some (Val pointers) => index_live m rest (set_union index pointers) fuel
      end
  end.

(* main.rs:385-411, the input not being the output. How it stands after so many steps, and what is in the output
   file; None = it was not touched *)
Inductive progress : Type := Exited (x : exit) | Aborted | Going.
Definition filter_command_live (creatable : N -> bool) (output_exists : bool) (input : option reader) (a : filter_args) (fuel : nat)
  : progress * option (list N) :=
  if negb (fa_clobber a) && output_exists then (Exited Failure, None) else
  match input with
  | None => (Exited Failure, None)
  | Some r =>
      if negb (creatable (fa_output a)) then (Exited Failure, None) else
      match parse_number_ranges (fa_include a), parse_number_ranges (fa_exclude a) with
      | Some i, Some e =>
          if is_nil (to_u16s i) && is_nil (to_u16s e) && is_none (fa_before a) && is_none (fa_after a)
          then (Exited Failure, Some []) else
          match filter_live (to_u16s i) (to_u16s e) (fa_before a) (fa_after a) r fuel with
          | (out, Returned) => (Exited Success, Some out)
          | (out, Panicking) => (Aborted, Some out)
          | (out, Running) => (Going, Some out)
          end
      | _, _ => (Exited Failure, Some [])
      end
  end.
