(* Properties C13 - C17, C54: time codes *)
From Coq Require Import Floats.SpecFloat.
From Verif Require Import Base S_Bits S_Timecode M_Packet M_Timecode L_Base L_Bits L_Timecode L_Float.
Open Scope N_scope.

(* C13 *)
(* for nd = 4 and more than 2^30 days hifitime's Duration (at most 32768 centuries) would saturate: outside the model *)
Theorem C13_cds_value : forall ovf nd ns buf, bytes_ok buf ->
  (nd <= 4)%nat -> (ns = 0 \/ ns = 2)%nat -> (nd + ns + 4 <= length buf)%nat ->
  timecode_decode ovf (Cds nd ns) buf = Val (Ok (mkEpoch UTC
    (epoch1958 + Z.of_N (field buf 0 (8 * nd)) * ns_per_day
     + Z.of_N (field buf (8 * nd) 32) * 1000000
     + Z.of_N (field buf (8 * nd + 32) (8 * ns)) * 1000))).
Proof.
  intros ovf nd ns buf Hb Hnd Hns HL. cbn [timecode_decode].
  rewrite decode_cds_gen by (assumption || lia).
  replace (8 * nd + 32)%nat with (8 * (nd + 4))%nat by lia.
  assert (S : submillis ovf nd ns buf = Val (Ok (field buf (8 * (nd + 4)) (8 * ns) * 1000))).
  { destruct Hns as [->| ->]; [reflexivity|]. cbn [submillis].
    rewrite mul_micros; [reflexivity|]. assert (B := field_bound buf (8 * (nd + 4)) 16). exact B. }
  rewrite S. cbn [rbind]. do 3 f_equal. unfold compose, epoch1958, ns_per_day, CCSDS_HIFIEPOCH_DELTA_SECS. lia.
Qed.
Print Assumptions C13_cds_value.

Theorem C13_cds_trailing_ignored : forall ovf nd ns buf extra, bytes_ok (buf ++ extra) ->
  (nd + ns + 4 <= length buf)%nat ->
  timecode_decode ovf (Cds nd ns) (buf ++ extra) = timecode_decode ovf (Cds nd ns) buf.
Proof.
  intros ovf nd ns buf extra Hb HL. cbn [timecode_decode].
  assert (L : (nd + ns + 4 <= length (buf ++ extra))%nat) by (rewrite app_length; lia).
  assert (Hb' := Hb). apply bytes_ok_app in Hb'. destruct Hb' as [Hb1 Hb2].
  destruct (Nat.le_gt_cases nd 4).
  - rewrite !decode_cds_gen by assumption. destruct ns as [|[|[|[|[|ns]]]]]; cbn [submillis]; rewrite ?field_app_l by lia; reflexivity.
  - rewrite !decode_cds_wide by assumption. reflexivity.
Qed.
Print Assumptions C13_cds_trailing_ignored.

Theorem C13_cds_short : forall ovf nd ns buf, (length buf < nd + ns + 4)%nat ->
  timecode_decode ovf (Cds nd ns) buf = Val (Err (NotEnoughData (length buf) (nd + ns + 4))).
Proof. exact decode_cds_short. Qed.
Print Assumptions C13_cds_short.

Theorem C13_cds_bad_submillis : forall ovf nd ns buf e, bytes_ok buf ->
  ns <> 0%nat -> ns <> 2%nat -> ns <> 4%nat ->
  timecode_decode ovf (Cds nd ns) buf <> Val (Ok e) /\
  ((nd <= 4)%nat -> (nd + ns + 4 <= length buf)%nat ->
   timecode_decode ovf (Cds nd ns) buf = Val (Err TimecodeConfig)).
Proof.
  intros ovf nd ns buf e Hb H0 H2 H4. cbn [timecode_decode].
  assert (S : submillis ovf nd ns buf = Val (Err TimecodeConfig)).
  { destruct ns as [|[|[|[|[|ns]]]]]; try reflexivity; lia. }
  assert (X : (nd <= 4)%nat -> (nd + ns + 4 <= length buf)%nat -> decode_cds ovf nd ns buf = Val (Err TimecodeConfig)).
  { intros. rewrite decode_cds_gen, S by assumption. reflexivity. }
  split; [|exact X].
  destruct (Nat.le_gt_cases (nd + ns + 4) (length buf)).
  - destruct (Nat.le_gt_cases nd 4); [rewrite X by assumption; discriminate|].
    rewrite decode_cds_wide by assumption. discriminate.
  - rewrite decode_cds_short by assumption. discriminate.
Qed.
Print Assumptions C13_cds_bad_submillis.

(* 2024-11-01T00:00:01.684519Z, the example of the crate's documentation: 45595 days after 1900-01-01 *)
Example C13_ex : timecode_decode true (Cds 2 2) [0x5f; 0x5b; 0x00; 0x00; 0x06; 0x94; 0x02; 0x07] =
  Val (Ok (mkEpoch UTC (45595 * ns_per_day + 1684519000)%Z)).
Proof. reflexivity. Qed.

(* C14: exact behaviour of the 4 byte sub-millisecond field *)
Theorem C14_submillis4_exact : forall ovf nd buf, bytes_ok buf -> (nd <= 4)%nat -> (nd + 8 <= length buf)%nat ->
  let x := field buf (8 * nd + 32) 32 in
  timecode_decode ovf (Cds nd 4) buf =
  if x <? 4295 then
    Val (Ok (mkEpoch UTC (epoch1958 + Z.of_N (field buf 0 (8 * nd)) * ns_per_day
                          + Z.of_N (field buf (8 * nd) 32) * 1000000 + Z.of_N x * 1000000)))
  else if ovf then Panic
  else Val (Ok (mkEpoch UTC (epoch1958 + Z.of_N (field buf 0 (8 * nd)) * ns_per_day
                  + Z.of_N (field buf (8 * nd) 32) * 1000000 + (Z.of_N x * 1000000) mod 4294967296))).
Proof.
  intros ovf nd buf Hb Hnd HL x. cbn [timecode_decode]. rewrite decode_cds_gen by (assumption || lia).
  unfold submillis. replace (8 * (nd + 4))%nat with (8 * nd + 32)%nat by lia. fold x.
  unfold mul_w. change (2 ^ 32) with 4294967296.
  destruct (x <? 4295) eqn:E.
  - replace (x * 1000000 <? 4294967296) with true by lia. cbn [obind rbind].
    do 3 f_equal. unfold compose, epoch1958, ns_per_day, CCSDS_HIFIEPOCH_DELTA_SECS. lia.
  - replace (x * 1000000 <? 4294967296) with false by lia. destruct ovf; [reflexivity|]. cbn [obind rbind].
    do 3 f_equal. unfold compose, epoch1958, ns_per_day, CCSDS_HIFIEPOCH_DELTA_SECS.
    rewrite N2Z.inj_mod, N2Z.inj_mul. lia.
Qed.
Print Assumptions C14_submillis4_exact.

(* no non-zero picosecond value is ever decoded correctly (1 ps unit = 1/1000 ns, so x picoseconds are
   x / 1000 ns) except by wrapping around to the right value: with overflow checks, never *)
Theorem C14_picoseconds_refuted : forall nd buf e, bytes_ok buf -> (nd <= 4)%nat -> (nd + 8 <= length buf)%nat ->
  let x := field buf (8 * nd + 32) 32 in
  x <> 0 ->
  timecode_decode true (Cds nd 4) buf = Val (Ok e) ->
  (ep_nanos e > epoch1958 + Z.of_N (field buf 0 (8 * nd)) * ns_per_day
                + Z.of_N (field buf (8 * nd) 32) * 1000000 + Z.of_N x / 1000 + 1)%Z.
Proof.
  intros nd buf e Hb Hnd HL x Hx H. rewrite C14_submillis4_exact in H by assumption. fold x in H.
  clearbody x. destruct (x <? 4295) eqn:E; [|discriminate].
  assert (E2 := f_equal (fun o => match o with Val (Ok e) => ep_nanos e | _ => 0%Z end) H). cbv beta iota in E2. 
  cbn [ep_nanos] in E2. rewrite <- E2. clear E2 H.
  generalize (Z.of_N (field buf 0 (8 * nd)) * ns_per_day)%Z (Z.of_N (field buf (8 * nd) 32) * 1000000)%Z epoch1958. intros.
  assert (Z.of_N x / 1000 <= Z.of_N x)%Z by (apply Z.div_le_upper_bound; lia). lia.
Qed.
Print Assumptions C14_picoseconds_refuted.
Example C14_ex : timecode_decode true (Cds 2 4) [0x5f; 0x5b; 0; 0; 6; 0x94; 0; 0; 0x10; 0xc7] = Panic /\
  timecode_decode true (Cds 2 4) [0x5f; 0x5b; 0; 0; 0; 0; 0; 0; 0; 1] = Val (Ok (mkEpoch UTC (45595 * ns_per_day + 1000000)%Z)).
Proof. split; reflexivity. Qed.


Lemma value_floor_trunc : forall k m e, Z.of_N (trunc_dyadic (k * m) e) = value_floor k m e.
Proof.
  intros. unfold trunc_dyadic, value_floor. destruct (0 <=? e)%Z eqn:E.
  - rewrite N2Z.inj_mul, N2Z.inj_pow, Z2N.id by lia. reflexivity.
  - rewrite N2Z.inj_div, N2Z.inj_pow, Z2N.id by lia. reflexivity.
Qed.

(* single precision values are (-1)^s * m * 2^e with valid_binary 24 128 *)
Theorem C15_cuc_value : forall ovf nc nf m e buf, bytes_ok buf ->
  (1 <= nc <= 4)%nat -> (nf <= 3)%nat -> (nc + nf <= length buf)%nat ->
  valid_binary 24 128 (S754_finite false m e) = true ->
  timecode_decode ovf (Cuc nc nf (Some (S754_finite false m e))) buf = Val (Ok (mkEpoch TAI
    (epoch1958 + Z.of_N (field buf 0 (8 * nc)) * 1000000000
     + Z.min (value_floor (field buf (8 * nc) (8 * nf)) (Npos m) e) 18446744073709551615))).
Proof.
  intros ovf nc nf m e buf Hb Hnc Hnf HL Hv. cbn [timecode_decode]. rewrite decode_cuc_gen by assumption.
  rewrite fine_product_exact; [|..|exact Hv].
  - do 3 f_equal. rewrite <- value_floor_trunc. generalize (trunc_dyadic (field buf (8 * nc) (8 * nf) * N.pos m) e). intro t.
    unfold compose, epoch1958, CCSDS_HIFIEPOCH_DELTA_SECS, U64_MAX. lia.
  - eapply N.lt_le_trans; [apply field_bound|]. apply N.pow_le_mono_r; lia.
Qed.
Print Assumptions C15_cuc_value.

Theorem C15_cuc_default_mult : forall ovf nc nf buf, bytes_ok buf ->
  (1 <= nc <= 4)%nat -> (nf <= 3)%nat -> (nc + nf <= length buf)%nat ->
  timecode_decode ovf (Cuc nc nf None) buf = Val (Ok (mkEpoch TAI
    (epoch1958 + Z.of_N (field buf 0 (8 * nc)) * 1000000000 + Z.of_N (field buf (8 * nc) (8 * nf))))).
Proof.
  intros ovf nc nf buf Hb Hnc Hnf HL.
  assert (V : valid_binary 24 128 f32_one = true) by reflexivity.
  assert (C := C15_cuc_value ovf nc nf 8388608 (-23) buf Hb Hnc Hnf HL V).
  transitivity (timecode_decode ovf (Cuc nc nf (Some (S754_finite false 8388608 (-23)))) buf); [reflexivity|].
  etransitivity; [exact C|]. do 3 f_equal.
  unfold value_floor. change (0 <=? -23)%Z with false. cbv iota. change (2 ^ (- -23))%Z with 8388608%Z.
  rewrite N2Z.inj_mul. change (Z.of_N 8388608) with 8388608%Z. rewrite Z.div_mul by lia.
  assert (B := field_bound buf (8 * nc) (8 * nf)).
  assert (2 ^ N.of_nat (8 * nf) <= 2 ^ 24) by (apply N.pow_le_mono_r; lia). change (2 ^ 24) with 16777216 in H. lia.
Qed.
Print Assumptions C15_cuc_default_mult.

(* Every other multiplier: zeros, negative numbers and NaN add nothing, infinity adds 2^64 - 1 unless the field is 0. *)
Lemma round_aux_neg : forall m e l, u64_of_f64 (binary_round_aux 53 1024 true m e l) = 0.
Proof.
  intros m e l. unfold binary_round_aux. destruct (shr_fexp 53 1024 m e l) as [r e1].
  destruct (shr_fexp 53 1024 (round_nearest_even (shr_m r) (loc_of_shr_record r)) e1 loc_Exact) as [r2 e2].
  destruct (shr_m r2); [reflexivity| |reflexivity]. destruct (e2 <=? 1024 - 53)%Z; reflexivity.
Qed.
Lemma round_neg : forall m e, exists f, binary_round 53 1024 true m e = f /\
  (f = S754_zero true \/ f = S754_infinity true \/ f = S754_nan \/ exists m e, f = S754_finite true m e).
Proof.
  intros m e. eexists. split; [reflexivity|]. unfold binary_round. match goal with |- context [let (_, _) := ?x in _] => destruct x as [mz ez] end. unfold binary_round_aux.
  destruct (shr_fexp 53 1024 (Zpos mz) ez loc_Exact) as [r e1].
  destruct (shr_fexp 53 1024 (round_nearest_even (shr_m r) (loc_of_shr_record r)) e1 loc_Exact) as [r2 e2].
  destruct (shr_m r2) as [|q|q]; [left; reflexivity| |right; right; left; reflexivity].
  destruct (e2 <=? 1024 - 53)%Z; [right; right; right; eauto|right; left; reflexivity].
Qed.
Lemma fine_nonneg : forall k, k < 2 ^ 24 -> f64_of_u64 k = (if k =? 0 then S754_zero false else f64_of_u64 k) /\
  (k <> 0 -> exists m e, f64_of_u64 k = S754_finite false m e).
Proof.
  intros k H. destruct k as [|p]; [split; [reflexivity|congruence]|]. split; [reflexivity|]. intros _. unfold f64_of_u64. cbn [Z.of_N].
  assert (B : (Zpos p < 2 ^ 24)%Z) by lia. destruct (normalize_exact false p 0) as (j & m & _ & _ & E); [lia|lia|]. rewrite E. eauto.
Qed.
Theorem C15_cuc_other_mult : forall ovf nc nf mult buf, bytes_ok buf ->
  (1 <= nc <= 4)%nat -> (nf <= 3)%nat -> (nc + nf <= length buf)%nat ->
  let fine := field buf (8 * nc) (8 * nf) in
  let at_nanos n := timecode_decode ovf (Cuc nc nf (Some mult)) buf = Val (Ok (mkEpoch TAI
    (epoch1958 + Z.of_N (field buf 0 (8 * nc)) * 1000000000 + n))) in
  match mult with
  | S754_zero _ | S754_nan | S754_infinity true | S754_finite true _ _ => at_nanos 0%Z
  | S754_infinity false => (fine = 0 -> at_nanos 0%Z) /\ (fine <> 0 -> at_nanos 18446744073709551615%Z)
  | S754_finite false _ _ => True (* C15_cuc_value *)
  end.
Proof.
  intros ovf nc nf mult buf Hb Hnc Hnf HL. cbv zeta. cbn [timecode_decode]. rewrite decode_cuc_gen by assumption.
  set (k := field buf (8 * nc) (8 * nf)).
  assert (K : k < 2 ^ 24) by (eapply N.lt_le_trans; [apply field_bound|]; apply N.pow_le_mono_r; lia).
  assert (X : forall n, fine_product k mult = n -> Val (Ok (mkEpoch TAI (compose 0 (field buf 0 (8 * nc) + CCSDS_HIFIEPOCH_DELTA_SECS) 0 (fine_product k mult)))) =
    Val (Ok (mkEpoch TAI (epoch1958 + Z.of_N (field buf 0 (8 * nc)) * 1000000000 + Z.of_N n)))).
  { intros n ->. do 3 f_equal. unfold compose, epoch1958, CCSDS_HIFIEPOCH_DELTA_SECS. lia. }
  destruct (fine_nonneg k K) as [Z0 NZ]. destruct (N.eq_dec k 0) as [E|NE].
  - assert (P : match mult with S754_finite false _ _ => True | _ => fine_product k mult = 0 end).
    { rewrite E in *. clear Z0 NZ. destruct mult as [s|s| |[] m e]; try exact I; try reflexivity. unfold fine_product, f64_of_f32. cbn [binary_normalize].
      destruct (round_neg m e) as (f & -> & [->|[->|[->|(m' & e' & ->)]]]); reflexivity. }
    destruct mult as [s|[]| |[] m e]; try exact I; try (apply (X 0), P).
    split; [|intro; contradiction]. intros _. apply (X 0), P.
  - destruct (NZ NE) as (m1 & e1 & E1).
    assert (P : match mult with S754_finite false _ _ => True | S754_infinity false => fine_product k mult = U64_MAX | _ => fine_product k mult = 0 end).
    { destruct mult as [s|[]| |[] m e]; try exact I; unfold fine_product; rewrite E1; try reflexivity. unfold f64_of_f32. cbn [binary_normalize].
      destruct (round_neg m e) as (f & -> & [->|[->|[->|(m' & e' & ->)]]]); try reflexivity. cbn [SFmul xorb]. apply round_aux_neg. }
    destruct mult as [s|[]| |[] m e]; try exact I; try (apply (X 0), P).
    split; [intro; contradiction|]. intros _. apply (X U64_MAX), P.
Qed.
Print Assumptions C15_cuc_other_mult.
Example C15_ex_other : timecode_decode true (Cuc 1 1 (Some (S754_infinity false))) [1; 1] = Val (Ok (mkEpoch TAI (epoch1958 + 1000000000 + 18446744073709551615)))
  /\ timecode_decode true (Cuc 1 1 (Some (S754_finite true 8388608 (-23)))) [1; 1] = Val (Ok (mkEpoch TAI (epoch1958 + 1000000000))).
Proof. split; reflexivity. Qed.

Theorem C15_cuc_errors : forall ovf nc nf mult buf,
  ((nc = 0 \/ 4 < nc \/ 3 < nf)%nat -> timecode_decode ovf (Cuc nc nf mult) buf = Val (Err TimecodeConfig)) /\
  ((1 <= nc <= 4)%nat -> (nf <= 3)%nat -> (length buf < nc + nf)%nat ->
   timecode_decode ovf (Cuc nc nf mult) buf = Val (Err (NotEnoughData (length buf) (nc + nf)))).
Proof. intros. split; intros; [apply decode_cuc_badwidth|apply decode_cuc_short]; assumption. Qed.
Print Assumptions C15_cuc_errors.

(* 15200.0 and 1/3 as f32 *)
Example C15_ex : valid_binary 24 128 (S754_finite false 15564800 (-10)) = true /\
  timecode_decode true (Cuc 4 2 (Some (S754_finite false 15564800 (-10)))) [0; 0; 1; 0; 0xff; 0xff; 9] =
    Val (Ok (mkEpoch TAI (epoch1958 + 256 * 1000000000 + 65535 * 15200)%Z)) /\
  timecode_decode true (Cuc 1 3 (Some (S754_finite false 11184811 (-25)))) [1; 0xff; 0xff; 0xff] =
    Val (Ok (mkEpoch TAI (epoch1958 + 1000000000 + 5592405)%Z)).
Proof. repeat split; reflexivity. Qed.

(* C16 *)
Theorem C16_cds_panic_exact : forall ovf nd ns buf, bytes_ok buf ->
  (timecode_decode ovf (Cds nd ns) buf = Panic <->
   (nd + ns + 4 <= length buf)%nat /\
   ((4 < nd)%nat \/ (ovf = true /\ ns = 4%nat /\ 4295 <= field buf (8 * nd + 32) 32))).
Proof.
  intros ovf nd ns buf Hb. cbn [timecode_decode].
  destruct (Nat.le_gt_cases (nd + ns + 4) (length buf)) as [L|L].
  - destruct (Nat.le_gt_cases nd 4) as [D|D].
    + rewrite decode_cds_gen by assumption. unfold submillis. replace (8 * (nd + 4))%nat with (8 * nd + 32)%nat by lia.
      destruct ns as [|[|[|[|[|ns]]]]]; cbn [rbind].
      1,2,4,6: (split; [discriminate|intros [_ [?|(_ & ? & _)]]; lia]).
      * rewrite mul_micros by (exact (field_bound buf (8 * nd + 32) 16)). cbn [obind rbind].
        split; [discriminate|intros [_ [?|(_ & ? & _)]]; lia].
      * unfold mul_w. change (2 ^ 32) with 4294967296.
        destruct (field buf (8 * nd + 32) 32 * 1000000 <? 4294967296) eqn:E; [|destruct ovf]; cbn [obind rbind].
        -- split; [discriminate|]. intros [_ [?|(_ & _ & ?)]]; [lia|]. lia.
        -- split; [|reflexivity]. intros _. split; [exact L|]. right. repeat split. lia.
        -- split; [discriminate|]. intros [_ [?|(? & _)]]; [lia|discriminate].
    + rewrite decode_cds_wide by assumption. split; auto.
  - rewrite decode_cds_short by assumption. split; [discriminate|]. lia.
Qed.
Print Assumptions C16_cds_panic_exact.

Theorem C16_cuc_never_panics : forall ovf nc nf mult buf, timecode_decode ovf (Cuc nc nf mult) buf <> Panic.
Proof.
  intros ovf nc nf mult buf. cbn [timecode_decode]. unfold decode_cuc.
  destruct ((1 <=? nc)%nat && (nc <=? 4)%nat) eqn:E; [|discriminate]. cbn [negb].
  apply andb_true_iff in E. destruct E as [E1 E2]. apply Nat.leb_le in E1, E2.
  destruct (nf <=? 3)%nat eqn:E3; [|discriminate]. apply Nat.leb_le in E3. cbn [negb].
  destruct (length buf <? nc + nf)%nat eqn:E4; [discriminate|]. apply Nat.ltb_ge in E4.
  rewrite slice0 by lia. cbn [obind]. rewrite slice_from_ok by lia. cbn [obind].
  rewrite (usub_ok 8 nc) by lia. cbn [obind]. rewrite slice0 by (rewrite skipn_length; lia). cbn [obind].
  rewrite (usub_ok 8 nf) by lia. cbn [obind]. discriminate.
Qed.
Print Assumptions C16_cuc_never_panics.
Example C16_ex : timecode_decode true (Cds 5 0) [1;2;3;4;5;6;7;8;9] = Panic.
Proof. reflexivity. Qed.

(* C17 *)
Theorem C17_registered_format : forall ovf d before f apids after p,
  In (apid (p_header p)) apids ->
  (forall r, In r after -> ~ In (apid (p_header p)) (snd r)) ->
  (6 <= length (p_data p))%nat ->
  let dec := fold_left (fun t r => tdecoder_register t (fst r) (snd r)) (before ++ (f, apids) :: after) (tdecoder_new d) in
  tdecoder_decode ovf dec p = timecode_decode ovf f (skipn 6 (p_data p)).
Proof.
  intros ovf d before f apids after p I H L dec. unfold tdecoder_decode.
  destruct (registers_get (before ++ (f, apids) :: after) (tdecoder_new d) (apid (p_header p))) as [E _].
  fold dec in E. rewrite E, last_registered_some by assumption.
  unfold HDR_LEN. rewrite slice_from_ok by assumption. reflexivity.
Qed.
Print Assumptions C17_registered_format.

Theorem C17_default_format : forall ovf d regs p,
  (forall r, In r regs -> ~ In (apid (p_header p)) (snd r)) ->
  (6 <= length (p_data p))%nat ->
  let dec := fold_left (fun t r => tdecoder_register t (fst r) (snd r)) regs (tdecoder_new d) in
  tdecoder_decode ovf dec p = timecode_decode ovf d (skipn 6 (p_data p)).
Proof.
  intros ovf d regs p H L dec. unfold tdecoder_decode.
  destruct (registers_get regs (tdecoder_new d) (apid (p_header p))) as [E E'].
  fold dec in E, E'. rewrite E, last_registered_none by assumption. cbn [tdecoder_new td_formats aget]. rewrite E'.
  unfold HDR_LEN. rewrite slice_from_ok by assumption. reflexivity.
Qed.
Print Assumptions C17_default_format.

(* C54: the EOS helper fails on every buffer *)
Theorem C54_eos_helper_refuted : forall ovf buf, py_decode_eos_timecode ovf buf = Val (Err TimecodeConfig).
Proof. intros. apply decode_cuc_badwidth. right. right. lia. Qed.
Print Assumptions C54_eos_helper_refuted.

(* ... and the JPSS helper is the 2 day byte, 2 microsecond byte CDS decode *)
Theorem C54_jpss_helper : forall ovf buf, bytes_ok buf -> (8 <= length buf)%nat ->
  py_decode_jpss_timecode ovf buf = Val (Ok (mkEpoch UTC
    (epoch1958 + Z.of_N (field buf 0 16) * ns_per_day
     + Z.of_N (field buf 16 32) * 1000000 + Z.of_N (field buf 48 16) * 1000))).
Proof. intros. apply (C13_cds_value ovf 2 2); auto. Qed.
Print Assumptions C54_jpss_helper.
