(* Model of ccsds-lib/src/timecode.rs and ccsds-lib/src/spacepacket/timecode.rs.
   hifitime::Duration / Epoch are external: an epoch is a time scale and an exact integer number of
   nanoseconds since 1900-01-01 in that scale (Duration::compose is taken to be exact). *)
From Coq Require Import Floats.SpecFloat.
From Verif Require Import Base M_Packet.
Open Scope N_scope.

(* timecode.rs:16 and :18 *)
Definition CCSDS_HIFIEPOCH_DELTA_SECS : N := 1830297600.
Definition NUM_CDS_MILLIS_OF_DAY_BYTES : nat := 4%nat.

(* IEEE values: Coq.Floats.SpecFloat (sign, mantissa, exponent; no axioms). f32 is precision 24,
   exponent bound 128; f64 is precision 53, exponent bound 1024 *)
Definition f32 : Type := spec_float.
Definition f64 : Type := spec_float.
(* `n as f64` for an integer, rounding to nearest even *)
Definition f64_of_u64 (n : N) : f64 := binary_normalize 53 1024 (Z.of_N n) 0 false.
(* `x as f64` for an f32 *)
Definition f64_of_f32 (x : f32) : f64 :=
  match x with
  | S754_finite s m e => binary_normalize 53 1024 (if s then Zneg m else Zpos m) e s
  | _ => x
  end.

(* timecode.rs:25-51 *)
Inductive format : Type :=
| Cds (num_day num_submillis : nat)
| Cuc (num_coarse num_fine : nat) (fine_mult : option f32).

Inductive timescale := UTC | TAI.
Record epoch : Type := mkEpoch { ep_scale : timescale; ep_nanos : Z }.

(* uN::from_be_bytes on a list *)
Definition be_value (l : list N) : N := fold_left (fun acc b => 256 * acc + b) l 0.

(* Duration::compose(0, days, 0, 0, secs, millis, 0, nanos) in nanoseconds (external, exact) *)
Definition compose (days secs millis nanos : N) : Z :=
  (Z.of_N days * 86400000000000 + Z.of_N secs * 1000000000 + Z.of_N millis * 1000000 + Z.of_N nanos)%Z.

(* timecode.rs:94-132 decode_cds *)
Definition decode_cds (ovf : bool) (num_day num_submillis : nat) (buf : list N)
  : outcome (result epoch) :=
  let want := (num_day + num_submillis + NUM_CDS_MILLIS_OF_DAY_BYTES)%nat in
  if (length buf <? want)%nat then Val (Err (NotEnoughData (length buf) want)) else
  let* x := slice buf 0 num_day in
  let* rest := slice_from buf num_day in
  let* pad := usub 4 num_day in
  let day_bytes := repeat 0 pad ++ x in
  let* d0 := get day_bytes 0 in
  let* d1 := get day_bytes 1 in
  let* d2 := get day_bytes 2 in
  let* d3 := get day_bytes 3 in
  let days := be32 d0 d1 d2 d3 in
  let* m0 := get rest 0 in
  let* m1 := get rest 1 in
  let* m2 := get rest 2 in
  let* m3 := get rest 3 in
  let millis := be32 m0 m1 m2 m3 in
  let? nanos :=
    (match num_submillis with
     | 0%nat => Val (Ok 0)
     | 2%nat =>
         let* s0 := get rest 4 in
         let* s1 := get rest 5 in
         let* v := mul_w ovf 32 (be32 0 0 s0 s1) 1000 in Val (Ok v)
     | 4%nat =>
         let* s0 := get rest 4 in
         let* s1 := get rest 5 in
         let* s2 := get rest 6 in
         let* s3 := get rest 7 in
         let* v := mul_w ovf 32 (be32 s0 s1 s2 s3) 1000000 in Val (Ok v)
     | _ => Val (Err TimecodeConfig)
     end) in
  Val (Ok (mkEpoch UTC (compose days CCSDS_HIFIEPOCH_DELTA_SECS millis nanos))).

(* `x.trunc() as u64`: truncation, saturating, NaN becomes 0 *)
Definition U64_MAX : N := 18446744073709551615.
Definition trunc_dyadic (m : N) (e : Z) : N :=
  if (0 <=? e)%Z then m * 2 ^ Z.to_N e else m / 2 ^ Z.to_N (- e).
Definition u64_of_f64 (x : f64) : N :=
  match x with
  | S754_finite false m e => N.min (trunc_dyadic (Npos m) e) U64_MAX
  | S754_infinity false => U64_MAX
  | _ => 0
  end.
(* timecode.rs:177-180: `fine as f64`, times `mult as f64`, trunc, `as u64` *)
Definition fine_product (fine : N) (mult : f32) : N :=
  u64_of_f64 (SFmul 53 1024 (f64_of_u64 fine) (f64_of_f32 mult)).
(* 1.0f32 *)
Definition f32_one : f32 := S754_finite false 8388608 (-23).

(* timecode.rs:134-182 decode_cuc. coarse < 2^32, so adding the epoch delta in u64 cannot overflow. *)
Definition decode_cuc (num_coarse num_fine : nat) (fine_mult : option f32) (buf : list N)
  : outcome (result epoch) :=
  if negb ((1 <=? num_coarse)%nat && (num_coarse <=? 4)%nat) then Val (Err TimecodeConfig) else
  if negb (num_fine <=? 3)%nat then Val (Err TimecodeConfig) else
  if (length buf <? num_coarse + num_fine)%nat
  then Val (Err (NotEnoughData (length buf) (num_coarse + num_fine))) else
  let* x := slice buf 0 num_coarse in
  let* rest := slice_from buf num_coarse in
  let* pad := usub 8 num_coarse in
  let coarse := be_value (repeat 0 pad ++ x) in
  let* y := slice rest 0 num_fine in
  let* pad2 := usub 8 num_fine in
  let fine := be_value (repeat 0 pad2 ++ y) in
  let coarse := coarse + CCSDS_HIFIEPOCH_DELTA_SECS in
  let fine_nanos := fine_product fine (match fine_mult with Some m => m | None => f32_one end) in
  Val (Ok (mkEpoch TAI (compose 0 coarse 0 fine_nanos))).

(* timecode.rs:80-92 decode *)
Definition timecode_decode (ovf : bool) (f : format) (buf : list N) : outcome (result epoch) :=
  match f with
  | Cds nd ns => decode_cds ovf nd ns buf
  | Cuc nc nf m => decode_cuc nc nf m buf
  end.

(* spacepacket/timecode.rs:15-18 TimecodeDecoder *)
Record tdecoder : Type := mkTdecoder { td_formats : amap format; td_default : format }.
(* spacepacket/timecode.rs:21-26 *)
Definition tdecoder_new (d : format) : tdecoder := mkTdecoder [] d.
(* spacepacket/timecode.rs:29-33 register *)
Definition tdecoder_register (t : tdecoder) (f : format) (apids : list N) : tdecoder :=
  mkTdecoder (fold_left (fun m a => aset a f m) apids (td_formats t)) (td_default t).
(* spacepacket/timecode.rs:40-46 decode *)
Definition tdecoder_decode (ovf : bool) (t : tdecoder) (p : packet) : outcome (result epoch) :=
  let fmt := match aget (apid (p_header p)) (td_formats t) with
             | Some f => f | None => td_default t end in
  let* body := slice_from (p_data p) HDR_LEN in
  timecode_decode ovf fmt body.

(* ccsds-py/src/lib.rs:145-154 decode_eos_timecode: num_coarse 2, num_fine 4, 15200.0 *)
Definition py_decode_eos_timecode (ovf : bool) (buf : list N) : outcome (result epoch) :=
  timecode_decode ovf (Cuc 2 4 (Some (S754_finite false 15564800 (-10)))) buf.
(* ccsds-py/src/lib.rs:160-168 decode_jpss_timecode *)
Definition py_decode_jpss_timecode (ovf : bool) (buf : list N) : outcome (result epoch) :=
  timecode_decode ovf (Cds 2 2) buf.
