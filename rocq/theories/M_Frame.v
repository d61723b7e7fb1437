(* Model of ccsds-lib/src/framing/mod.rs, framing/pipeline/framing.rs and the derandomize stage of
   framing/pipeline/mod.rs *)
From Verif Require Import Base M_Packet M_Bytes M_Sync M_Pn.
Open Scope N_scope.

(* framing/reed_solomon.rs:13-24 *)
Inductive integrity : Type := IOk | ICorrected | IUncorrectable | INotCorrected | IFailed.
(* framing/reed_solomon.rs:40-45 *)
Definition integrity_ok (i : integrity) : bool :=
  match i with IOk | ICorrected => true | _ => false end.

(* framing/mod.rs:106-111 *)
Record vcdu_header : Type := mkVcdu { v_version : N; v_scid : N; v_vcid : N; v_counter : N }.
(* framing/mod.rs:115-119 *)
Definition VCDU_LEN : nat := 6%nat.
Definition VCID_FILL : N := 63.
Definition COUNTER_MAX : N := 0xffffff - 1.

(* framing/mod.rs:145-153 decode_v1 *)
Definition vcdu_decode_v1 (dat : list N) : outcome (option vcdu_header) :=
  let* b0 := get dat 0 in
  let* b1 := get dat 1 in
  let* b2 := get dat 2 in
  let* b3 := get dat 3 in
  let x := be16 b0 b1 in
  Val (Some (mkVcdu 0 (N.land (N.shiftr x 4) 0x3ff) (N.land (N.shiftr x 1) 0x7) (be32 0 0 b2 b3))).

(* framing/mod.rs:156-164 decode_v2 *)
Definition vcdu_decode_v2 (dat : list N) : outcome (option vcdu_header) :=
  let* b0 := get dat 0 in
  let* b1 := get dat 1 in
  let* b2 := get dat 2 in
  let* b3 := get dat 3 in
  let* b4 := get dat 4 in
  let x := be16 b0 b1 in
  Val (Some (mkVcdu 1 (N.land (N.shiftr x 6) 0xff) (N.land x 0x3f) (be32 0 b2 b3 b4))).

(* framing/mod.rs:130-142 VCDUHeader::decode *)
Definition vcdu_decode (dat : list N) : outcome (option vcdu_header) :=
  if (length dat <? VCDU_LEN)%nat then Val None else
  let* b0 := get dat 0 in
  match N.land (N.shiftr b0 6) 0x3 with
  | 0 => vcdu_decode_v1 dat
  | 1 => vcdu_decode_v2 dat
  | _ => Val None
  end.

(* framing/mod.rs:59-71 *)
Record frame : Type := mkFrame {
  f_header : vcdu_header;
  f_missing : N;
  f_integrity : option integrity;
  f_data : list N }.

(* framing/mod.rs:77-85 Frame::decode *)
Definition frame_decode (dat : list N) : outcome (option frame) :=
  let* h := vcdu_decode dat in
  match h with
  | None => Val None
  | Some h => Val (Some (mkFrame h 0 None dat))
  end.

(* framing/mod.rs:88-90 *)
Definition frame_is_fill (f : frame) : bool := v_vcid (f_header f) =? VCID_FILL.

(* framing/mod.rs:169-173, 188-191 *)
Record mpdu : Type := mkMpdu { m_first_header : N; m_data : list N }.
Definition MPDU_FILL : N := 0x7fe.
Definition MPDU_NO_HEADER : N := 0x7ff.

(* framing/mod.rs:195-205 MPDU::decode *)
Definition mpdu_decode (data : list N) : outcome (option mpdu) :=
  if (length data <? 2)%nat then Val None else
  let* b0 := get data 0 in
  let* b1 := get data 1 in
  Val (Some (mkMpdu (N.land (be16 b0 b1) 0x7ff) data)).

(* framing/mod.rs:208-230 *)
Definition mpdu_is_fill (m : mpdu) : bool := m_first_header m =? MPDU_FILL.
Definition mpdu_has_header (m : mpdu) : bool := negb (m_first_header m =? MPDU_NO_HEADER).
Definition mpdu_payload (m : mpdu) : outcome (list N) :=
  if (2 <=? length (m_data m))%nat then slice_from (m_data m) 2 else Panic.
Definition mpdu_header_offset (m : mpdu) : nat := N.to_nat (m_first_header m).

(* framing/mod.rs:94-100 Frame::mpdu *)
Definition frame_mpdu (f : frame) (izone trailer : nat) : outcome (option mpdu) :=
  let start := (VCDU_LEN + izone)%nat in
  let* stop := usub (length (f_data f)) trailer in
  let* data := slice (f_data f) start stop in
  mpdu_decode data.

(* framing/mod.rs:238-257 missing_frames (u32 arithmetic) *)
Definition missing_frames (ovf : bool) (cur last : N) : outcome N :=
  if cur =? last then Val COUNTER_MAX else
  let* expected := (if last =? COUNTER_MAX then Val 0 else add_w ovf 32 last 1) in
  if cur =? expected then Val 0
  else if cur <? last then
    let* d := sub_w ovf 32 COUNTER_MAX last in add_w ovf 32 d cur
  else
    let* d := sub_w ovf 32 cur last in sub_w ovf 32 d 1.

(* framing/pipeline/framing.rs:5-11 CaduDecoderIter; the upstream iterator is a finite list *)
Record fdec : Type := mkFdec { fd_counters : amap N; fd_cadus : list block }.
(* framing/pipeline/framing.rs:46-56 *)
Definition frame_decoder (cadus : list block) : fdec := mkFdec [] cadus.

(* framing/pipeline/framing.rs:19-39 next *)
Definition fdec_next (ovf : bool) (s : fdec) : outcome (option frame * fdec) :=
  match fd_cadus s with
  | [] => Val (None, s)
  | cadu :: rest =>
      let* h := vcdu_decode (bl_data cadu) in
      match h with
      | None => Val (None, mkFdec (fd_counters s) rest)
      | Some h =>
          let* missing :=
            (if negb (v_vcid h =? VCID_FILL) then
               match aget (v_vcid h) (fd_counters s) with
               | Some last => missing_frames ovf (v_counter h) last
               | None => Val 0
               end
             else Val 0) in
          Val (Some (mkFrame h missing None (bl_data cadu)),
               mkFdec (aset (v_vcid h) (v_counter h) (fd_counters s)) rest)
      end
  end.

(* framing/pipeline/mod.rs:16-26 derandomize *)
Definition derandomize_cadu (c : block) : block :=
  mkBlock (bl_last c) (bl_loc c) (derandomize_bytes (bl_data c)).
Definition derandomize (cadus : list block) : list block := map derandomize_cadu cadus.
