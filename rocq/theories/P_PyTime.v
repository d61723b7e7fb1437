(* Property C97: Timecode.unix_seconds and Timecode.datetime of the Python module *)
From Coq Require Import Reals Lra Lia.
From Flocq Require Import Core.
From Flocq Require Import BinarySingleNaN.
From Coq Require Import Floats.SpecFloat.
From Verif Require Import Base S_Bits S_Timecode S_PyTime M_Packet M_Timecode M_PyTime L_Base L_Bits L_Timecode P_Timecode L_PyTime.
Open Scope Z_scope.

Lemma unix_nanos_spec : forall leap e, unix_nanos leap e = unix_time leap e.
Proof. intros leap [sc n]. unfold unix_nanos, unix_time, unix_ns, ns1970, ns_per_day, UNIX_REF. cbn [ep_scale ep_nanos]. destruct sc; lia. Qed.

Lemma within_abs : forall k t, within (2 ^ k - 2) t -> Z.abs t <= (2 ^ k - 2) * 1000000000.
Proof. intros k t (A & B). lia. Qed.

Lemma near_gen : forall k b t, 20 <= k <= 35 -> within (2 ^ k - 2) t ->
  (/ 2 + 500000 * bpow radix2 (k - 53) + / 1000000000 < IZR b / 1000)%R ->
  exists u, fromtimestamp (to_seconds t) = Some u /\ Z.abs (1000 * u - t) < b.
Proof.
  intros k b t K W B. destruct (datetime_err k t K (within_abs _ _ W)) as (u & A & C). exists u. split; [exact A|].
  apply lt_IZR. rewrite abs_IZR, minus_IZR, mult_IZR.
  assert (L : (Rabs (IZR u - IZR t / 1000) < IZR b / 1000)%R) by lra.
  apply Rabs_def2 in L. apply Rabs_def1; lra.
Qed.
Lemma bpow33 : (bpow radix2 (33 - 53) = / 1048576)%R. Proof. change (33 - 53) with (- (20)). rewrite bpn by lia. reflexivity. Qed.
Lemma bpow31 : (bpow radix2 (31 - 53) = / 4194304)%R. Proof. change (31 - 53) with (- (22)). rewrite bpn by lia. reflexivity. Qed.

(* unix_seconds is less than half a microsecond off *)
Theorem C97_unix_seconds : forall leap e, within until2242 (unix_time leap e) ->
  is_finite (unix_seconds leap e) = true /\
  (Rabs (B2R (unix_seconds leap e) - IZR (unix_time leap e) / 1000000000) < / 2000000)%R.
Proof.
  intros leap e W. unfold unix_seconds. rewrite unix_nanos_spec. destruct (to_seconds_err 33 (unix_time leap e)) as (A & B & _); [lia|exact (within_abs 33 _ W)|].
  split; [exact A|]. eapply Rle_lt_trans; [exact B|]. rewrite bpow33. change (2 ^ 52) with 4503599627370496. lra.
Qed.
Print Assumptions C97_unix_seconds.

(* datetime is less than a microsecond off, and up to 2038 less than 0.62 *)
Theorem C97_near : forall leap e, within until2242 (unix_time leap e) ->
  exists u, datetime leap e = Some u /\ Z.abs (1000 * u - unix_time leap e) < 1000 /\
    (within until2038 (unix_time leap e) -> Z.abs (1000 * u - unix_time leap e) < 620).
Proof.
  intros leap e W. destruct (near_gen 33 1000 (unix_time leap e)) as (u & A & B); [lia|exact W|rewrite bpow33; lra|].
  exists u. unfold datetime, unix_seconds. rewrite unix_nanos_spec. split; [exact A|]. split; [exact B|]. intros W'.
  destruct (near_gen 31 620 (unix_time leap e)) as (u' & A' & B'); [lia|exact W'|rewrite bpow31; lra|].
  congruence.
Qed.
Print Assumptions C97_near.

(* A time of whole microseconds: datetime is exactly that time. *)
Theorem C97_exact : forall leap e u, within until2242 (unix_time leap e) -> unix_time leap e = 1000 * u -> datetime leap e = Some u.
Proof.
  intros leap e u W E. destruct (C97_near leap e W) as (v & A & B & _). rewrite A, E in *. f_equal. lia.
Qed.
Print Assumptions C97_exact.

(* Every JPSS time code, whatever its eight bytes (16 bits days since 1958, 32 bits milliseconds, 16 bits microseconds), has exactly
   its time as its datetime. 4383 days are from 1958 to 1970. *)
Theorem C97_jpss : forall ovf leap buf, bytes_ok buf -> (8 <= length buf)%nat ->
  exists e, py_decode_jpss_timecode ovf buf = Val (Ok e) /\
    datetime leap e = Some ((Z.of_N (field buf 0 16) - 4383) * 86400000000 + Z.of_N (field buf 16 32) * 1000 + Z.of_N (field buf 48 16)).
Proof.
  intros ovf leap buf B L. rewrite C54_jpss_helper by assumption. eexists. split; [reflexivity|].
  assert (F1 := field_bound buf 0 16). assert (F2 := field_bound buf 16 32). assert (F3 := field_bound buf 48 16).
  change (2 ^ N.of_nat 16)%N with 65536%N in *. change (2 ^ N.of_nat 32)%N with 4294967296%N in *.
  assert (U : unix_time leap (mkEpoch UTC (epoch1958 + Z.of_N (field buf 0 16) * ns_per_day + Z.of_N (field buf 16 32) * 1000000 + Z.of_N (field buf 48 16) * 1000))
    = 1000 * ((Z.of_N (field buf 0 16) - 4383) * 86400000000 + Z.of_N (field buf 16 32) * 1000 + Z.of_N (field buf 48 16))).
  { unfold unix_time. cbn [ep_scale ep_nanos]. unfold unix_ns, ns1970, epoch1958, ns_per_day. lia. }
  apply C97_exact; [|exact U]. rewrite U. unfold within, until2242. lia.
Qed.
Print Assumptions C97_jpss.

Lemma ok_inj : forall {A} (a b : A), @eq (outcome (result A)) (Val (Ok a)) (Val (Ok b)) -> a = b.
Proof. intros A a b E. injection E as E. exact E. Qed.
(* ... so that datetimes are in the same order as the time codes, and equal only for equal times. *)
Theorem C97_jpss_order : forall ovf leap buf buf' e e', bytes_ok buf -> bytes_ok buf' -> (8 <= length buf)%nat -> (8 <= length buf')%nat ->
  py_decode_jpss_timecode ovf buf = Val (Ok e) -> py_decode_jpss_timecode ovf buf' = Val (Ok e') ->
  exists u u', datetime leap e = Some u /\ datetime leap e' = Some u' /\ (u ?= u') = (ep_nanos e ?= ep_nanos e').
Proof.
  intros ovf leap buf buf' e e' B B' L L' D D'.
  destruct (C97_jpss ovf leap buf B L) as (e0 & D0 & U). destruct (C97_jpss ovf leap buf' B' L') as (e0' & D0' & U').
  rewrite D in D0. rewrite D' in D0'. injection D0 as <-. injection D0' as <-. eexists. eexists. split; [exact U|]. split; [exact U'|].
  rewrite C54_jpss_helper in D, D' by assumption. apply ok_inj in D. apply ok_inj in D'. subst e e'. cbn [ep_nanos].
  unfold epoch1958, ns_per_day.
  match goal with |- (?a ?= ?b) = (?c ?= ?d) => replace c with (1000 * a + 2208988800000000000) by lia; replace d with (1000 * b + 2208988800000000000) by lia end.
  set (a := _ + Z.of_N (field buf 48 16)). set (b := _ + Z.of_N (field buf' 48 16)).
  destruct (Z.compare_spec a b); symmetry; [apply Z.compare_eq_iff|apply Z.compare_lt_iff|apply Z.compare_gt_iff]; lia.
Qed.
Print Assumptions C97_jpss_order.

(* The same for the CDS time codes with other widths of the day field and with milliseconds only, up to the year 2242. *)
Theorem C97_cds : forall ovf leap nd ns buf, bytes_ok buf -> (nd <= 4)%nat -> (ns = 0 \/ ns = 2)%nat -> (nd + ns + 4 <= length buf)%nat ->
  let us := (Z.of_N (field buf 0 (8 * nd)) - 4383) * 86400000000 + Z.of_N (field buf (8 * nd) 32) * 1000 + Z.of_N (field buf (8 * nd + 32) (8 * ns)) in
  within until2242 (1000 * us) ->
  exists e, timecode_decode ovf (Cds nd ns) buf = Val (Ok e) /\ datetime leap e = Some us.
Proof.
  intros ovf leap nd ns buf B N1 N2 L us W. rewrite C13_cds_value by assumption. eexists. split; [reflexivity|].
  assert (U : forall n, n = epoch1958 + 1000 * (us + 4383 * 86400000000) -> unix_time leap (mkEpoch UTC n) = 1000 * us).
  { intros n ->. unfold unix_time. cbn [ep_scale ep_nanos]. unfold unix_ns, ns1970, epoch1958, ns_per_day. lia. }
  assert (X := U _ eq_refl). apply C97_exact.
  - rewrite U; [exact W|]. unfold us, ns_per_day. lia.
  - apply U. unfold us, ns_per_day. lia.
Qed.
Print Assumptions C97_cds.

(* CUC time codes: whole seconds since 1958 in TAI and a fraction; less the leap seconds, the same microsecond. *)
Theorem C97_cuc : forall ovf leap nc nf m x buf, bytes_ok buf -> (1 <= nc <= 4)%nat -> (nf <= 3)%nat -> (nc + nf <= length buf)%nat ->
  valid_binary 24 128 (S754_finite false m x) = true ->
  let tai := Z.of_N (field buf 0 (8 * nc)) * 1000000000 + Z.min (value_floor (field buf (8 * nc) (8 * nf)) (Npos m) x) 18446744073709551615 in
  let utc := tai - leap (epoch1958 + tai) * 1000000000 - 4383 * ns_per_day in
  within until2242 utc ->
  exists e u, timecode_decode ovf (Cuc nc nf (Some (S754_finite false m x))) buf = Val (Ok e) /\
    datetime leap e = Some u /\ Z.abs (1000 * u - utc) < 1000.
Proof.
  intros ovf leap nc nf m x buf B N1 N2 L V tai utc W. rewrite C15_cuc_value by assumption. eexists.
  match goal with |- context [mkEpoch TAI ?n] => assert (U : unix_time leap (mkEpoch TAI n) = utc) end.
  { unfold utc. unfold unix_time. cbn [ep_scale ep_nanos]. rewrite <- Z.add_assoc. fold tai. unfold unix_ns, ns1970, epoch1958, ns_per_day. lia. }
  match type of U with unix_time _ ?e = _ => destruct (C97_near leap e) as (u & A & D & _); [rewrite U; exact W|] end.
  exists u. split; [reflexivity|]. split; [exact A|]. rewrite U in D. exact D.
Qed.
Print Assumptions C97_cuc.

(* "any nanoseconds present are silently dropped" is refuted: up to 2038, from 620 nanoseconds on the datetime is the next
   microsecond ... *)
Theorem C97_dropped_refuted : forall leap e, within until2038 (unix_time leap e) -> 620 <= unix_time leap e mod 1000 ->
  datetime leap e = Some (unix_time leap e / 1000 + 1).
Proof.
  intros leap e W R. destruct (C97_near leap e) as (u & A & _ & B); [unfold within, until2242, until2038 in *; lia|].
  specialize (B W). rewrite A. f_equal.
  assert (M := Z.mod_pos_bound (unix_time leap e) 1000 ltac:(lia)). assert (D := Z_div_mod_eq_full (unix_time leap e) 1000). lia.
Qed.
Print Assumptions C97_dropped_refuted.
(* ... and below 380 they are dropped *)
Theorem C97_dropped : forall leap e, within until2038 (unix_time leap e) -> unix_time leap e mod 1000 <= 380 ->
  datetime leap e = Some (unix_time leap e / 1000).
Proof.
  intros leap e W R. destruct (C97_near leap e) as (u & A & _ & B); [unfold within, until2242, until2038 in *; lia|].
  specialize (B W). rewrite A. f_equal.
  assert (M := Z.mod_pos_bound (unix_time leap e) 1000 ltac:(lia)). assert (D := Z_div_mod_eq_full (unix_time leap e) 1000). lia.
Qed.
Print Assumptions C97_dropped.

(* a CUC time code that is shown a microsecond late: 4 bytes of seconds since 1958, 1 byte of units of 4 ns *)
Definition four : f32 := S754_finite false 8388608 (-21).
Definition pt_cuc : list N := [88; 0; 0; 0; 200]%N.
Example C97_ex_late : forall ovf (leap : Z -> Z), (forall n, 0 <= leap n <= 100) ->
  exists e, timecode_decode ovf (Cuc 4 1 (Some four)) pt_cuc = Val (Ok e) /\
    unix_time leap e mod 1000 = 800 /\ datetime leap e = Some (unix_time leap e / 1000 + 1).
Proof.
  intros ovf leap H. eexists. split; [vm_compute; reflexivity|].
  match goal with |- context [unix_time leap ?e] => set (ee := e) end.
  assert (U : unix_time leap ee = 1097703808000000800 - leap (ep_nanos ee) * 1000000000) by (unfold unix_time, ee, unix_ns, ns1970, ns_per_day; cbn [ep_scale ep_nanos]; lia).
  specialize (H (ep_nanos ee)). set (q := leap (ep_nanos ee)) in *.
  assert (R : unix_time leap ee mod 1000 = 800).
  { rewrite U. replace (1097703808000000800 - q * 1000000000) with (800 + (1097703808000000 - q * 1000000) * 1000) by lia. rewrite Z.mod_add by lia. reflexivity. }
  split; [exact R|]. apply C97_dropped_refuted; [|rewrite R; lia]. rewrite U. unfold within, until2038. lia.
Qed.
(* The expectation that a time of whole microseconds is always given exactly is refuted after 2242: a CDS time code with 3 bytes of
   days, in that year; and the datetime does not exist for the last ones. *)
Definition pt_2242 : list N := [1; 149; 128; 0; 0; 0; 0; 0; 1]%N.
Theorem C97_late_refuted : forall ovf leap,
  (exists e u, timecode_decode ovf (Cds 3 2) pt_2242 = Val (Ok e) /\ unix_time leap e = 1000 * u /\ datetime leap e = Some (u + 1)) /\
  (exists e, timecode_decode ovf (Cds 3 2) [255; 255; 255; 0; 0; 0; 0; 0; 0]%N = Val (Ok e) /\ datetime leap e = None).
Proof.
  intros ovf leap. split.
  - eexists. exists ((103808 - 4383) * 86400000000 + 1). split; [destruct ovf; vm_compute; reflexivity|]. split; vm_compute; reflexivity.
  - eexists. split; [destruct ovf; vm_compute; reflexivity|]. vm_compute. reflexivity.
Qed.
Print Assumptions C97_late_refuted.
(* the time code of the module's own test: 2016-01-01T00:00:00.167219 *)
Definition pt_jpss : list N := [82; 192; 0; 0; 0; 167; 0; 219; 255]%N.
Example C97_ex_jpss : forall ovf leap, exists e, py_decode_jpss_timecode ovf pt_jpss = Val (Ok e) /\
  datetime leap e = Some 1451606400167219 /\ within until2038 (unix_time leap e) /\ bytes_ok pt_jpss.
Proof.
  intros ovf leap. eexists. split; [destruct ovf; vm_compute; reflexivity|]. split; [vm_compute; reflexivity|].
  split; [|repeat constructor]. unfold within, until2038, unix_time, unix_ns, ns1970, ns_per_day. cbn [ep_scale ep_nanos]. lia.
Qed.
(* 1958: before 1970 *)
Example C97_ex_1958 : forall ovf leap, exists e, py_decode_jpss_timecode ovf [0; 0; 0; 0; 0; 1; 0; 1]%N = Val (Ok e) /\
  datetime leap e = Some (-378691199998999).
Proof. intros ovf leap. eexists. split; [destruct ovf; vm_compute; reflexivity|]. vm_compute. reflexivity. Qed.
