(* Specification: merging inputs that fail or change while they are read. The merger reads every input twice: once from its
   start, to find the groups, and then again at the place of each group that it writes. *)
From Verif Require Import Base M_Reader S_Packet M_Packet M_Group S_Group M_Merge S_Merge M_Live S_Live M_MergeLive M_Main.
Open Scope nat_scope.

(* [found p]: the groups that were found in the input with path p. x = (path, group) is one of them, and one to be merged *)
Definition candidate (m : merger) (found : N -> list pgroup) (x : N * pgroup) : Prop :=
  exists f rest t, In (fst x) (mg_paths m) /\ In (snd x) (found (fst x)) /\ g_packets (snd x) = f :: rest /\
    (sequence_flags (p_header f) = 1 \/ sequence_flags (p_header f) = 3)%N /\
    mg_time m f = Some t /\ within m t /\ requested m (apid_of f).
(* one of each: no two with the same key, and every key is there *)
Definition chosen (m : merger) (found : N -> list pgroup) (sel : list (N * pgroup)) : Prop :=
  Forall (candidate m found) sel /\ NoDup (map (fun x => gkey m (snd x)) sel) /\
  forall x, candidate m found x -> exists x', In x' sel /\ gkey m (snd x') = gkey m (snd x).
(* by time, and by the order value of the apid at the same time *)
Definition time_order (m : merger) (order : list N) (sel : list (N * pgroup)) : Prop :=
  forall x y tx ty ax ay sx sy ox oy, before sel x y ->
    gkey m (snd x) = Some (tx, ax, sx) -> gkey m (snd y) = Some (ty, ay, sy) ->
    order_value order ax ox -> order_value order ay oy -> (tx < ty \/ tx = ty /\ ox <= oy)%Z.

(* where the merger looks for a group: n bytes from the offset of its first packet on, n by the headers of all its packets *)
Definition placed (g : pgroup) (off n : nat) : Prop :=
  exists f rest, g_packets g = f :: rest /\ off = p_offset f /\ n = list_sum (map (fun p => 7 + N.to_nat (len_minus1 (p_header p))) (g_packets g)).

(* How the k-th group is found again: [again p k off] is what the input with path p does when it is asked for the bytes from off
   on: an error, or a reader, from which exactly the wanted number of bytes is read *)
Definition found_again (again : N -> nat -> nat -> iokind + reader) (k : nat) (x : N * pgroup) (d : list N) : Prop :=
  exists off n r r', placed (snd x) off n /\ again (fst x) k off = inr r /\ read_exact n r = (d, None, r').
Definition not_found (again : N -> nat -> nat -> iokind + reader) (k : nat) (x : N * pgroup) (e : iokind) : Prop :=
  exists off n, placed (snd x) off n /\
    (again (fst x) k off = inl e \/ exists r d r', again (fst x) k off = inr r /\ read_exact n r = (d, Some e, r')).
(* What there is to write: what was found for the groups, one after the other, up to the first that is not found again *)
Definition copied (again : N -> nat -> nat -> iokind + reader) (sel : list (N * pgroup)) (full : list N) (failure : option iokind) : Prop :=
  exists blocks, full = concat blocks /\
    (forall k d, nth_error blocks k = Some d -> exists x, nth_error sel k = Some x /\ found_again again k x d) /\
    match failure with
    | None => length blocks = length sel
    | Some e => exists x, nth_error sel (length blocks) = Some x /\ not_found again (length blocks) x e
    end.
Definition again_of (ins : N -> option input) (p : N) : nat -> nat -> iokind + reader :=
  match ins p with Some i => in_again i | None => fun _ _ => inl (OtherIo 0) end.

(* every input opens and is read to an end; found p is what is found in it. [group_reads] (S_Live.v) says how an input reads in
   groups when it fails or pauses on the way. *)
Definition all_found (ins : N -> option input) (m : merger) (found : N -> list pgroup) : Prop :=
  forall p, In p (mg_paths m) -> exists i, ins p = Some i /\ group_reads (pdec_new (in_first i)) (found p) Returned.
(* a hash table may be iterated in any order *)
Definition order_ok (h : live_order) : Prop :=
  (forall l, Permutation l (lo_inputs h l)) /\ (forall l, Permutation l (lo_index h l)).

(* an input whose reads all succeed, in pieces of any size (read again at its end, it is at its end again) *)
Definition reads_as (r : reader) (bs : list N) : Prop :=
  (exists n, transcript (evs r) = map TByte bs ++ repeat TEof n) /\ fin r = AtEof.
(* an input that has the contents bs, but whose reads may fail at some point *)
Definition truthful (r : reader) (bs : list N) : Prop :=
  reads_as r bs \/
  exists d rest, bs = d ++ rest /\
    ((transcript (evs r) = map TByte d /\ exists c, fin r = Failing c) \/ exists k ts, transcript (evs r) = map TByte d ++ TErr k :: ts).
(* when asked again, the input has the contents [now], or fails *)
Definition has_now (i : input) (now : list N) : Prop :=
  forall k off, (exists e, in_again i k off = inl e) \/ exists r, in_again i k off = inr r /\ truthful r (skipn off now).
(* ... and does not fail *)
Definition reads_now (i : input) (now : list N) : Prop :=
  forall k off, exists r, in_again i k off = inr r /\ reads_as r (skipn off now).

(* every input opens; found p and st p say what is found in it and how reading it goes *)
Definition all_read (ins : N -> option input) (m : merger) (found : N -> list pgroup) (st : N -> status) : Prop :=
  forall p, In p (mg_paths m) -> exists i, ins p = Some i /\ group_reads (pdec_new (in_first i)) (found p) (st p).
(* Reading delivers the packets ws, in pieces of any size, and then a rest; reads fail now and then, but not inside a packet. (An
   end of file that is reported as an error is an end, not a failing read.) *)
Inductive fails_between : list token -> list wire_packet -> list N -> Prop :=
| fb_rest : forall tail, fails_between (map TByte tail) [] tail
| fb_error : forall k ts ws tail, k <> UnexpectedEof -> fails_between ts ws tail -> fails_between (TErr k :: ts) ws tail
| fb_packet : forall w ts ws tail, fails_between ts ws tail -> fails_between (map TByte (wire_bytes w) ++ ts) (w :: ws) tail.
(* a file with the contents bs that holds the packets ws, read without errors or with errors between packets *)
Definition read_well (r : reader) (bs : list N) (ws : list wire_packet) : Prop :=
  file_holds bs ws /\
  (r = reader_of bs \/ exists tail, bs = concat (map wire_bytes ws) ++ tail /\ fails_between (transcript (evs r)) ws tail /\ fin r = AtEof).
(* the bytes where the merger looks for a group, when its input has the contents now p *)
Definition at_place (now : N -> list N) (x : N * pgroup) (d : list N) : Prop :=
  exists off n, placed (snd x) off n /\ off + n <= length (now (fst x)) /\ d = firstn n (skipn off (now (fst x))).
Definition beyond (now : N -> list N) (x : N * pgroup) : Prop :=
  exists off n, placed (snd x) off n /\ length (now (fst x)) < off + n.
(* a file that stays as it is *)
Definition file_input (bs : list N) : input := mkInput (reader_of bs) (fun _ off => inr (reader_of (skipn off bs))).
(* the merge that the options ask for *)
Definition asked_merger (a : merge_args) (order : list N) : merger :=
  with_apid_order (mkMerger (ma_inputs a) cds_time [] (option_map to_micros (ma_from a)) (option_map to_micros (ma_to a)) (Some (ma_apids a))) order.
