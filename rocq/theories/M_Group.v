(* Model of ccsds-lib/src/spacepacket/mod.rs: packet groups *)
From Verif Require Import Base M_Packet.
Open Scope N_scope.

(* spacepacket/mod.rs:296-299 *)
Record pgroup : Type := mkGroup { g_apid : N; g_packets : list packet }.

(* spacepacket/mod.rs:343-350 PacketGroup::have_missing; `self.packets[1..]` panics when empty *)
Fixpoint any_missing (ovf : bool) (pairs : list (packet * packet)) : outcome bool :=
  match pairs with
  | [] => Val false
  | (a, b) :: rest =>
      let* m := missing_packets ovf (sequence_id (p_header b)) (sequence_id (p_header a)) in
      if 0 <? m then Val true else any_missing ovf rest
  end.
Definition have_missing (ovf : bool) (g : pgroup) : outcome bool :=
  let* tail := slice_from (g_packets g) 1 in
  any_missing ovf (combine (g_packets g) tail).

(* spacepacket/mod.rs:329-339 PacketGroup::complete *)
Definition complete (ovf : bool) (g : pgroup) : outcome bool :=
  match g_packets g with
  | [] => Val false
  | [p] => Val (is_standalone p)
  | p :: _ =>
      if is_first p then
        let* l := get (g_packets g) (length (g_packets g) - 1) in
        if is_last l then
          let* m := have_missing ovf g in Val (negb m)
        else Val false
      else Val false
  end.

(* spacepacket/mod.rs:482-489 PacketGroupIter *)
Record giter : Type := mkGiter {
  gi_packets : list packet;     (* the upstream iterator, finite *)
  gi_cached : option packet;
  gi_done : bool }.

(* spacepacket/mod.rs:499-505, 475-480 collect_groups *)
Definition giter_new (packets : list packet) : giter := mkGiter packets None false.

(* spacepacket/mod.rs:534-560: what one packet does to the group under construction.
   inl (g, c): return Some(Ok(g)) with self.cached = c; inr g: continue with group Some(g). *)
Definition gi_step (group : option pgroup) (p : packet)
  : outcome ((pgroup * option packet) + pgroup) :=
  match group with
  | None =>
      if is_standalone p then Val (inl (mkGroup (apid (p_header p)) [p], None))
      else Val (inr (mkGroup (apid (p_header p)) [p]))
  | Some g =>
      let* p0 := get (g_packets g) 0 in
      if negb (apid (p_header p) =? apid (p_header p0)) then Val (inl (g, Some p))
      else Val (inr (mkGroup (g_apid g) (g_packets g ++ [p])))
  end.

(* spacepacket/mod.rs:521-561: the loop, once the cache has been emptied.
   Result: (group to return or group in progress at the break, cached, remaining packets, broke) *)
Fixpoint gi_loop (packets : list packet) (group : option pgroup)
  : outcome (option pgroup * option packet * list packet * bool) :=
  match packets with
  | [] => Val (group, None, [], true)
  | p :: ps =>
      let* st := gi_step group p in
      match st with
      | inl (g, c) => Val (Some g, c, ps, false)
      | inr g => gi_loop ps (Some g)
      end
  end.

(* spacepacket/mod.rs:514-577 PacketGroupIter::next. All items are Ok. *)
Definition giter_next (s : giter) : outcome (option pgroup * giter) :=
  if gi_done s then Val (None, s) else
  let first :=
    match gi_cached s with
    | Some p =>
        let* st := gi_step None p in
        match st with
        | inl (g, c) => Val (Some g, c, gi_packets s, false)
        | inr g => gi_loop (gi_packets s) (Some g)
        end
    | None => gi_loop (gi_packets s) None
    end in
  let* '(g, c, rest, broke) := first in
  if broke then
    match g with
    | Some g => Val (Some g, mkGiter rest c false)
    | None =>
        (* lines 568-576: clear the cache *)
        match c with
        | Some p => Val (Some (mkGroup (apid (p_header p)) [p]), mkGiter rest None true)
        | None => Val (None, mkGiter rest None true)
        end
    end
  else Val (g, mkGiter rest c false).
