(* Specification: a time decoder made by TimecodeDecoder::new and calls of register, and what it makes of packets. Spec
   vocabulary: [field] (S_Bits.v, big endian bit fields), [epoch1958], [ns_per_day] (S_Timecode.v). *)
From Verif Require Import Base S_Bits S_Packet M_Packet M_Group M_Timecode M_Merge S_Timecode S_Merge S_Group S_AnyFile.
Open Scope N_scope.

Definition registered : Type := list (format * list N).
(* TimecodeDecoder::new(default) and then the calls of register *)
Definition decoder (default : format) (regs : registered) : tdecoder :=
  fold_left (fun t r => tdecoder_register t (fst r) (snd r)) regs (tdecoder_new default).
(* the format for the apid [a]: the one registered last for it, or the default *)
Definition format_for (default : format) (regs : registered) (a : N) (f : format) : Prop :=
  (exists before apids after, regs = before ++ (f, apids) :: after /\ In a apids /\ forall r, In r after -> ~ In a (snd r)) \/
  (f = default /\ forall r, In r regs -> ~ In a (snd r)).
Definition only_cds (default : format) (regs : registered) : Prop :=
  Forall (fun f => exists nd ns, f = Cds nd ns) (default :: map fst regs).

(* the time of a packet with the format [f], in nanoseconds, when the format has days of at most 4 bytes and no or 2 bytes
   below the millisecond; [body] are the bytes behind the primary header *)
Definition cds_time_is (f : format) (body : list N) (t : option Z) : Prop :=
  exists nd ns, f = Cds nd ns /\
  t = if (nd + ns + 4 <=? length body)%nat
      then Some (epoch1958 + Z.of_N (field body 0 (8 * nd)) * ns_per_day + Z.of_N (field body (8 * nd) 32) * 1000000
                 + Z.of_N (field body (8 * nd + 32) (8 * ns)) * 1000)%Z
      else None.
Definition common (f : format) : Prop := exists nd ns, f = Cds nd ns /\ (nd <= 4)%nat /\ (ns = 0 \/ ns = 2)%nat.
(* decoding a packet with the format [f] panics *)
Definition time_panics (ovf : bool) (f : format) (body : list N) : Prop :=
  exists nd ns, f = Cds nd ns /\ (nd + ns + 4 <= length body)%nat /\
    ((4 < nd)%nat \/ (ovf = true /\ ns = 4%nat /\ 4295 <= field body (8 * nd + 32) 32)).
(* a group begins with a first packet or a standalone packet *)
Definition begins_with (g : pgroup) (p : packet) : Prop :=
  exists rest, g_packets g = p :: rest /\ (sequence_flags (p_header p) = 1 \/ sequence_flags (p_header p) = 3).
