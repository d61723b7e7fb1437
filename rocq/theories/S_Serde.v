(* Specification: which JSON values stand for the library's types. Shared with the model: the types themselves. [has_once],
   [lacks], [whole], [size], [truth], [marker] and [maybe] are those of S_Config.v. *)
From Coq Require Import String.
From Verif Require Import Base S_Json M_Packet M_Group M_Frame M_Summary M_Config S_Config S_Cli.
From Coq Require Import List NArith ZArith Bool Permutation.
Import ListNotations.
Open Scope N_scope.

(* a struct with these fields: an object that has each of the names once or, as a [None] says, not at all, and whatever else;
   or an array of all the values in this order *)
Definition record_is (names : list string) (v : jval) (vs : list (option jval)) : Prop :=
  (exists l, v = VObj l /\ Forall2 (fun k o => match o with None => lacks l k | Some w => has_once l k w end) names vs) \/
  (exists ws, v = VArr ws /\ List.length ws = List.length names /\ vs = map Some ws).
Definition u8 := whole (2 ^ 8).
Definition u16 := whole (2 ^ 16).
Definition u32 := whole (2 ^ 32).
(* bytes: an array of numbers below 256, or a string *)
Definition buffer (v : jval) (bs : list N) : Prop := marker v bs \/ v = VStr bs.
Definition list_is {A} (is : jval -> A -> Prop) (v : jval) (l : list A) : Prop := exists vs, v = VArr vs /\ Forall2 is vs l.

Definition header_is (v : jval) (h : header) : Prop := exists a b c d e f g,
  record_is ["version"; "type_flag"; "has_secondary_header"; "apid"; "sequence_flags"; "sequence_id"; "len_minus1"]%string v
    [Some a; Some b; Some c; Some d; Some e; Some f; Some g] /\
  u8 a (version h) /\ u8 b (type_flag h) /\ truth c (has_secondary_header h) /\ u16 d (apid h) /\ u8 e (sequence_flags h) /\
  u16 f (sequence_id h) /\ u16 g (len_minus1 h).
Definition packet_is (v : jval) (p : packet) : Prop := exists h d o,
  record_is ["header"; "data"; "offset"]%string v [Some h; Some d; Some o] /\
  header_is h (p_header p) /\ buffer d (p_data p) /\ size o (N.of_nat (p_offset p)).
Definition group_is (v : jval) (g : pgroup) : Prop := exists a ps,
  record_is ["apid"; "packets"]%string v [Some a; Some ps] /\ u16 a (g_apid g) /\ list_is packet_is ps (g_packets g).
Definition integrity_is (v : jval) (i : integrity) : Prop :=
  let s := text (match i with IOk => "Ok" | ICorrected => "Corrected" | IUncorrectable => "Uncorrectable" | INotCorrected => "NotCorrected" | IFailed => "Failed" end)%string in
  v = VStr s \/ v = VObj [(s, VNull)].
Definition vcdu_is (v : jval) (h : vcdu_header) : Prop := exists a b c d,
  record_is ["version"; "scid"; "vcid"; "counter"]%string v [Some a; Some b; Some c; Some d] /\
  u8 a (v_version h) /\ u16 b (v_scid h) /\ u16 c (v_vcid h) /\ u32 d (v_counter h).
Definition frame_is (v : jval) (f : frame) : Prop := exists h m i d,
  record_is ["header"; "missing"; "integrity"; "data"]%string v [Some h; Some m; i; Some d] /\
  vcdu_is h (f_header f) /\ u32 m (f_missing f) /\
  match i with None => f_integrity f = None | Some i => maybe integrity_is i (f_integrity f) end /\ buffer d (f_data f).

(* a table with numbers as keys: an object whose keys are numbers below 2^16, in decimal, without a sign or leading zeros; of
   several members with the same key the last one counts *)
Definition key_is (k : list N) (n : N) : Prop := digits k /\ decimal k = n /\ n < 2 ^ 16 /\ (k = [48] \/ hd 0 k <> 48).
Definition last_row {A} (rows : list (N * A)) (n : N) (o : option A) : Prop :=
  match o with
  | Some x => exists before after, rows = before ++ (n, x) :: after /\ ~ In n (map fst after)
  | None => ~ In n (map fst rows)
  end.
Definition table_is {A} (is : jval -> A -> Prop) (v : jval) (m : amap A) : Prop := exists l rows,
  v = VObj l /\ Forall2 (fun kv r => key_is (fst kv) (fst r) /\ is (snd kv) (snd r)) l rows /\ forall n, last_row rows n (aget n m).
Definition apid_summary_is (v : jval) (t : apid_summary) : Prop := exists a b c,
  record_is ["count"; "bytes"; "missing"]%string v [Some a; Some b; Some c] /\
  size a (as_count t) /\ size b (as_bytes t) /\ size c (as_missing t).
Definition summary_is (v : jval) (s : summary) : Prop := exists a b c d e,
  record_is ["count"; "bytes"; "missing"; "apids"; "seen_headers"]%string v [Some a; Some b; Some c; Some d; Some e] /\
  size a (s_count s) /\ size b (s_bytes s) /\ size c (s_missing s) /\ table_is apid_summary_is d (s_apids s) /\
  table_is header_is e (s_seen s).

(* values that the Rust types can hold *)
Definition header_fits (h : header) : Prop :=
  version h < 2 ^ 8 /\ type_flag h < 2 ^ 8 /\ apid h < 2 ^ 16 /\ sequence_flags h < 2 ^ 8 /\ sequence_id h < 2 ^ 16 /\ len_minus1 h < 2 ^ 16.
Definition packet_fits (p : packet) : Prop :=
  header_fits (p_header p) /\ Forall (fun b => b < 256) (p_data p) /\ N.of_nat (p_offset p) < 2 ^ 64.
Definition group_fits (g : pgroup) : Prop := g_apid g < 2 ^ 16 /\ Forall packet_fits (g_packets g).
Definition frame_fits (f : frame) : Prop :=
  v_version (f_header f) < 2 ^ 8 /\ v_scid (f_header f) < 2 ^ 16 /\ v_vcid (f_header f) < 2 ^ 16 /\ v_counter (f_header f) < 2 ^ 32 /\
  f_missing f < 2 ^ 32 /\ Forall (fun b => b < 256) (f_data f).
Definition summary_fits (s : summary) : Prop :=
  s_count s < 2 ^ 64 /\ s_bytes s < 2 ^ 64 /\ s_missing s < 2 ^ 64 /\
  (forall a t, aget a (s_apids s) = Some t -> as_count t < 2 ^ 64 /\ as_bytes t < 2 ^ 64 /\ as_missing t < 2 ^ 64).

(* two summaries with the same counts; the tables of apids have no order *)
Definition same_counts (s s' : summary) : Prop :=
  s_count s = s_count s' /\ s_bytes s = s_bytes s' /\ s_missing s = s_missing s' /\ forall a, aget a (s_apids s) = aget a (s_apids s').
