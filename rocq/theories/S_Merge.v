(* Specification of merging packet files *)
From Coq Require Export Permutation.
From Verif Require Import Base S_Packet M_Packet M_Group S_Group M_Merge.
Open Scope nat_scope.

(* A file holding the packets ws, and perhaps an incomplete packet at its end *)
Definition file_holds (bs : list N) (ws : list wire_packet) : Prop :=
  Forall wire_ok ws /\ Forall (fun w => N.of_nat (length (wire_bytes w)) <= 65536)%N ws /\
  exists tail, bs = concat (map wire_bytes ws) ++ tail /\ bytes_ok tail /\ incomplete tail /\
    (6 <= length tail -> (N.of_nat (wire_len tail) <= 65536)%N).
(* All files of the merge can be opened; path p holds the packets ws p *)
Definition readable (fs : files) (m : merger) (ws : N -> list wire_packet) : Prop :=
  forall p, In p (mg_paths m) -> exists bs, fs p = Some bs /\ file_holds bs (ws p).

(* what a group is identified by: time, apid and sequence id of its first packet *)
Definition gkey (m : merger) (g : pgroup) : option (Z * N * N) :=
  match g_packets g with
  | [] => None
  | f :: _ => match mg_time m f with
              | None => None
              | Some t => Some (t, apid_of f, seq f)
              end
  end.
Definition group_bytes (g : pgroup) : list N := concat (map p_data (g_packets g)).

(* time limits in nanoseconds since 1900: the from/to options in microseconds, or the years 1900 to 2200 *)
Definition within (m : merger) (t : Z) : Prop :=
  (match mg_from m with Some us => Z.of_N us * 1000 | None => 0 end <= t)%Z /\
  (t < match mg_to m with Some us => Z.of_N us * 1000 | None => 109573 * 86400 * 1000000000 end)%Z.
Definition requested (m : merger) (a : N) : Prop :=
  match mg_apids m with None | Some [] => True | Some l => In a l end.

(* g is a group, as collect_groups forms them (C10), of one of the files, and is to be merged *)
Definition eligible (m : merger) (ws : N -> list wire_packet) (g : pgroup) : Prop :=
  exists p gs f rest t,
    In p (mg_paths m) /\ grouping (packets_at 0 (ws p)) gs /\ In g gs /\
    g_packets g = f :: rest /\
    (sequence_flags (p_header f) = 1 \/ sequence_flags (p_header f) = 3)%N /\
    mg_time m f = Some t /\ within m t /\ requested m (apid_of f).

(* one of each: no two with the same key, all eligible, and every eligible key is there *)
Definition selection (m : merger) (ws : N -> list wire_packet) (sel : list pgroup) : Prop :=
  Forall (eligible m ws) sel /\ NoDup (map (gkey m) sel) /\
  forall g, eligible m ws g -> exists g', In g' sel /\ gkey m g' = gkey m g.

(* the order value of an apid when with_apid_order was called with [order] *)
Definition order_value (order : list N) (a : N) (v : Z) : Prop :=
  (exists i, nth_error order i = Some a /\ (forall j, i < j -> nth_error order j <> Some a) /\ v = (4096 - Z.of_nat i)%Z)
  \/ ~ In a order /\ v = Z.of_N a.

(* a hash table may be iterated in any order *)
Definition hash_ok (h : hash_order) : Prop :=
  (forall l, Permutation l (ho_readers h l)) /\ (forall l, Permutation l (ho_index h l)).

(* x comes somewhere before y *)
Definition before {A} (l : list A) (x y : A) : Prop := exists l1 l2 l3, l = l1 ++ x :: l2 ++ y :: l3.
(* the code's order of apids: unlisted ones by number, then the listed ones from the last to the first *)
Definition not_after (order : list N) (a b : N) : Prop :=
  (~ In a order /\ ~ In b order /\ (a <= b)%N) \/ (~ In a order /\ In b order) \/
  (exists i j, nth_error order i = Some a /\ nth_error order j = Some b /\ j <= i).
