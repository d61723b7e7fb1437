(* Property C105: the order of time codes *)
From Coq Require Import Floats.SpecFloat.
From Verif Require Import Base S_Bits L_Base L_Bits M_Packet M_Timecode M_Merge L_Timecode S_Timecode P_Timecode P_CliFilter S_TimeOrder.
Open Scope N_scope.

Lemma be_cons : forall a x, be (a :: x) = a * 256 ^ N.of_nat (length x) + be x.
Proof.
  intros a x. change (a :: x) with ([a] ++ x). rewrite be_app. f_equal. unfold be at 1. cbn [fold_left]. rewrite N.mul_0_r, N.add_0_l. f_equal.
  rewrite Nat2N.inj_mul, N.pow_mul_r. reflexivity.
Qed.
Lemma be_bound : forall x, bytes_ok x -> be x < 256 ^ N.of_nat (length x).
Proof.
  induction 1 as [|a x A X IH]; [reflexivity|]. rewrite be_cons. cbn [length]. rewrite Nat2N.inj_succ, N.pow_succ_r'.
  assert (K : a * 256 ^ N.of_nat (length x) <= 255 * 256 ^ N.of_nat (length x)) by (apply N.mul_le_mono_r; lia). lia.
Qed.
Lemma radix : forall x a y b K, a < K -> b < K -> (x * K + a < y * K + b <-> x < y \/ (x = y /\ a < b)).
Proof.
  intros x a y b K A B. split.
  - intro H. destruct (N.lt_trichotomy x y) as [L|[E|G]]; [left; exact L|right; split; [exact E|subst; lia]|].
    exfalso. assert (K1 : (y + 1) * K <= x * K) by (apply N.mul_le_mono_r; lia). lia.
  - intros [L|[-> L]]; [|lia]. assert (K1 : (x + 1) * K <= y * K) by (apply N.mul_le_mono_r; lia). lia.
Qed.
Lemma before_be : forall x y, bytes_ok x -> bytes_ok y -> length x = length y -> (bytes_before x y <-> be x < be y).
Proof.
  induction x as [|a x IH]; intros [|b y] HX HY L; try discriminate.
  - split; [intro H; inversion H|]. intro H. exfalso. exact (N.lt_irrefl _ H).
  - inversion HX; subst. inversion HY; subst. injection L as L. rewrite !be_cons, L.
    assert (BX := be_bound x ltac:(assumption)). assert (BY := be_bound y ltac:(assumption)). rewrite L in BX.
    rewrite (radix a (be x) b (be y) _ BX BY), <- (IH y) by assumption. split.
    + intro H. inversion H; subst; [left; assumption|right; split; [reflexivity|assumption]].
    + intros [H|[-> H]]; constructor; assumption.
Qed.
Lemma before_total : forall x y, bytes_ok x -> bytes_ok y -> length x = length y -> x <> y -> bytes_before x y \/ bytes_before y x.
Proof.
  induction x as [|a x IH]; intros [|b y] HX HY L NE; try discriminate; [contradiction|]. injection L as L. inversion HX; subst. inversion HY; subst.
  destruct (N.lt_trichotomy a b) as [H|[->|H]]; [left; constructor; [exact H|exact L]| |right; constructor; [exact H|congruence]].
  destruct (IH y) as [H|H]; try assumption; [congruence|left; constructor; exact H|right; constructor; exact H].
Qed.
Lemma pieces : forall (x : list N) a b, length x = (a + b)%nat -> x = firstn a x ++ firstn b (skipn a x).
Proof. intros x a b L. rewrite (firstn_all2 (skipn a x)) by (rewrite skipn_length; lia). symmetry. apply firstn_skipn. Qed.
Lemma be_two : forall x a b, bytes_ok x -> length x = (a + b)%nat ->
  be x = field x 0 (8 * a) * 256 ^ N.of_nat b + field x (8 * a) (8 * b) /\ field x (8 * a) (8 * b) < 256 ^ N.of_nat b.
Proof.
  intros x a b HX L. change 0%nat with (8 * 0)%nat at 1. rewrite !field_bytes by assumption. cbn [skipn].
  assert (LB : length (firstn b (skipn a x)) = b) by (rewrite firstn_length, skipn_length; lia).
  split.
  - rewrite (pieces x a b L) at 1. rewrite be_app, LB. f_equal. f_equal. rewrite Nat2N.inj_mul, N.pow_mul_r. reflexivity.
  - assert (H := be_bound (firstn b (skipn a x)) ltac:(apply bytes_ok_firstn, bytes_ok_skipn; assumption)). rewrite LB in H. exact H.
Qed.
Lemma be_three : forall x a b c, bytes_ok x -> length x = (a + b + c)%nat ->
  be x = (field x 0 (8 * a) * 256 ^ N.of_nat b + field x (8 * a) (8 * b)) * 256 ^ N.of_nat c + field x (8 * a + 8 * b) (8 * c) /\
  field x (8 * a) (8 * b) < 256 ^ N.of_nat b /\ field x (8 * a + 8 * b) (8 * c) < 256 ^ N.of_nat c.
Proof.
  intros x a b c HX L. destruct (be_two x (a + b) c HX L) as [E1 B1].
  assert (LF : length (firstn (a + b) x) = (a + b)%nat) by (rewrite firstn_length; lia).
  destruct (be_two (firstn (a + b) x) a b ltac:(apply bytes_ok_firstn; assumption) LF) as [E2 B2].
  assert (F : forall p q, (p + q <= a + b)%nat -> field (firstn (a + b) x) (8 * p) (8 * q) = field x (8 * p) (8 * q)).
  { intros p q H. rewrite !field_bytes by (try apply bytes_ok_firstn; assumption). f_equal. rewrite skipn_firstn_comm, firstn_firstn. f_equal. lia. }
  rewrite (F a b) in E2, B2 by lia. assert (F0 : field (firstn (a + b) x) 0 (8 * a) = field x 0 (8 * a)) by exact (F 0%nat a ltac:(lia)). rewrite F0 in E2.
  assert (G : field x 0 (8 * (a + b)) = be (firstn (a + b) x)).
  { change 0%nat with (8 * 0)%nat. rewrite field_bytes by assumption. reflexivity. }
  rewrite G, E2 in E1. replace (8 * (a + b))%nat with (8 * a + 8 * b)%nat in * by lia. auto.
Qed.

Lemma val_ok_inj : forall (T : Type) (a b : T), Val (@Ok T a) = Val (Ok b) -> a = b.
Proof. intros T a b H. injection H as H. exact H. Qed.

(* ---- CDS ---- *)
(* a code that names a millisecond of a day of 86400 s, and a microsecond of a millisecond *)
Definition regular (nd ns : nat) (buf : list N) : Prop := field buf (8 * nd) 32 < 86400000 /\ field buf (8 * nd + 32) (8 * ns) < 1000.
(* (Beyond 2^30 days, with a 4 byte day, hifitime's clock is outside the model: C13.)
   Of codes of one format, the one that comes first as bytes is the earlier one; equal times have equal codes *)
Theorem C105_cds : forall ovf nd ns x y tx ty, bytes_ok x -> bytes_ok y -> (nd <= 4)%nat -> (ns = 0 \/ ns = 2)%nat ->
  length x = (nd + ns + 4)%nat -> length y = (nd + ns + 4)%nat -> regular nd ns x -> regular nd ns y ->
  timecode_decode ovf (Cds nd ns) x = Val (Ok tx) -> timecode_decode ovf (Cds nd ns) y = Val (Ok ty) ->
  (bytes_before x y <-> (ep_nanos tx < ep_nanos ty)%Z) /\ (x = y <-> ep_nanos tx = ep_nanos ty).
Proof.
  intros ovf nd ns x y tx ty HX HY ND NS LX LY [MX SX] [MY SY] EX EY.
  rewrite C13_cds_value in EX, EY by (try assumption; lia). apply val_ok_inj in EX, EY. rewrite <- EX, <- EY. clear EX EY. cbn [ep_nanos].
  assert (ST : forall u v tu tv, bytes_ok u -> bytes_ok v -> length u = (nd + ns + 4)%nat -> length v = (nd + ns + 4)%nat -> regular nd ns u -> regular nd ns v ->
     tu = (epoch1958 + Z.of_N (field u 0 (8 * nd)) * ns_per_day + Z.of_N (field u (8 * nd) 32) * 1000000 + Z.of_N (field u (8 * nd + 32) (8 * ns)) * 1000)%Z ->
     tv = (epoch1958 + Z.of_N (field v 0 (8 * nd)) * ns_per_day + Z.of_N (field v (8 * nd) 32) * 1000000 + Z.of_N (field v (8 * nd + 32) (8 * ns)) * 1000)%Z ->
     (bytes_before u v <-> (tu < tv)%Z)).
  { intros u v tu tv HU HV LU LV [MU SU] [MV SV] -> ->. rewrite before_be by (assumption || congruence).
    destruct (be_three u nd 4 ns HU ltac:(lia)) as (EU & BU & CU). destruct (be_three v nd 4 ns HV ltac:(lia)) as (EV & BV & CV).
    change (8 * 4)%nat with 32%nat in *. rewrite EU, EV, (radix _ _ _ _ _ CU CV), (radix _ _ _ _ _ BU BV).
    unfold ns_per_day in *.
    generalize dependent (field u 0 (8 * nd)). generalize dependent (field u (8 * nd) 32). generalize dependent (field u (8 * nd + 32) (8 * ns)).
    generalize dependent (field v 0 (8 * nd)). generalize dependent (field v (8 * nd) 32). generalize dependent (field v (8 * nd + 32) (8 * ns)).
    intros s2 SV CV m2 MV BV d2 _ s1 SU CU m1 MU BU d1 _. clear -MU SU MV SV. lia. }
  assert (O := ST x y _ _ HX HY LX LY (conj MX SX) (conj MY SY) eq_refl eq_refl).
  assert (O' := ST y x _ _ HY HX LY LX (conj MY SY) (conj MX SX) eq_refl eq_refl).
  split; [exact O|]. split; [intros ->; reflexivity|]. intro E.
  destruct (list_eq_dec N.eq_dec x y) as [Q|NE]; [exact Q|]. exfalso.
  destruct (before_total x y HX HY ltac:(congruence) NE) as [B|B]; [apply O in B|apply O' in B]; lia.
Qed.
Print Assumptions C105_cds.
(* Milliseconds past the end of the day are not refused. So the leap second at the end of a UTC day, which is numbered so, and the first
   second of the next day have the same times, or the order is lost *)
Theorem C105_leap_second_refuted : forall ovf nd ns x y, bytes_ok x -> bytes_ok y -> (nd <= 4)%nat -> (ns = 0 \/ ns = 2)%nat ->
  length x = (nd + ns + 4)%nat -> length y = (nd + ns + 4)%nat ->
  field y 0 (8 * nd) = field x 0 (8 * nd) + 1 -> field x (8 * nd) 32 = 86400000 + field y (8 * nd) 32 ->
  exists tx ty, timecode_decode ovf (Cds nd ns) x = Val (Ok tx) /\ timecode_decode ovf (Cds nd ns) y = Val (Ok ty) /\ bytes_before x y /\
    ((ep_nanos tx < ep_nanos ty)%Z <-> field x (8 * nd + 32) (8 * ns) < field y (8 * nd + 32) (8 * ns)) /\
    (ep_nanos tx = ep_nanos ty <-> field x (8 * nd + 32) (8 * ns) = field y (8 * nd + 32) (8 * ns)).
Proof.
  intros ovf nd ns x y HX HY ND NS LX LY D M.
  eexists. eexists. split; [apply C13_cds_value; (assumption || lia)|]. split; [apply C13_cds_value; (assumption || lia)|]. cbn [ep_nanos].
  destruct (be_three x nd 4 ns HX ltac:(lia)) as (EX & BX & CX). destruct (be_three y nd 4 ns HY ltac:(lia)) as (EY & BY & CY).
  change (8 * 4)%nat with 32%nat in *. split.
  - rewrite before_be by (assumption || congruence). rewrite EX, EY, (radix _ _ _ _ _ CX CY), (radix _ _ _ _ _ BX BY). left. left. lia.
  - rewrite D, M. unfold ns_per_day. rewrite !N2Z.inj_add. split; lia.
Qed.
Print Assumptions C105_leap_second_refuted.
(* With a 4 byte sub-millisecond field, in a build without overflow checks, order is lost between 4294 and 4295 *)
Theorem C105_cds4_refuted : forall nd x y, bytes_ok x -> bytes_ok y -> (nd <= 4)%nat -> length x = (nd + 8)%nat -> length y = (nd + 8)%nat ->
  field x 0 (8 * nd) = field y 0 (8 * nd) -> field x (8 * nd) 32 = field y (8 * nd) 32 ->
  field x (8 * nd + 32) 32 = 4294 -> field y (8 * nd + 32) 32 = 4295 ->
  exists tx ty, timecode_decode false (Cds nd 4) x = Val (Ok tx) /\ timecode_decode false (Cds nd 4) y = Val (Ok ty) /\ bytes_before x y /\
    (ep_nanos ty < ep_nanos tx)%Z.
Proof.
  intros nd x y HX HY ND LX LY D M SX SY.
  destruct (be_three x nd 4 4 HX ltac:(lia)) as (EX & BX & CX). destruct (be_three y nd 4 4 HY ltac:(lia)) as (EY & BY & CY).
  change (8 * 4)%nat with 32%nat in *.
  assert (TX := C14_submillis4_exact false nd x HX ND ltac:(lia)). assert (TY := C14_submillis4_exact false nd y HY ND ltac:(lia)). cbn zeta in TX, TY.
  rewrite SX in TX. rewrite SY in TY. replace (4294 <? 4295) with true in TX by reflexivity. replace (4295 <? 4295) with false in TY by reflexivity.
  eexists. eexists. split; [exact TX|]. split; [exact TY|]. cbn [ep_nanos]. split.
  - rewrite before_be by (assumption || congruence). rewrite EX, EY, (radix _ _ _ _ _ CX CY), (radix _ _ _ _ _ BX BY). right. split; [congruence|lia].
  - rewrite D, M. change (Z.of_N 4295 * 1000000)%Z with 4295000000%Z. change (4295000000 mod 4294967296)%Z with 32704%Z. change (Z.of_N 4294) with 4294%Z. lia.
Qed.
Print Assumptions C105_cds4_refuted.

(* and, in every build, between a sub-millisecond field of 1 and more and the millisecond that follows *)
Theorem C105_cds4_milli_refuted : forall ovf nd x y, bytes_ok x -> bytes_ok y -> (nd <= 4)%nat -> length x = (nd + 8)%nat -> length y = (nd + 8)%nat ->
  field x 0 (8 * nd) = field y 0 (8 * nd) -> field y (8 * nd) 32 = field x (8 * nd) 32 + 1 ->
  1 <= field x (8 * nd + 32) 32 < 4295 -> field y (8 * nd + 32) 32 = 0 ->
  exists tx ty, timecode_decode ovf (Cds nd 4) x = Val (Ok tx) /\ timecode_decode ovf (Cds nd 4) y = Val (Ok ty) /\ bytes_before x y /\
    (ep_nanos ty <= ep_nanos tx)%Z.
Proof.
  intros ovf nd x y HX HY ND LX LY D M SX SY.
  destruct (be_three x nd 4 4 HX ltac:(lia)) as (EX & BX & CX). destruct (be_three y nd 4 4 HY ltac:(lia)) as (EY & BY & CY).
  change (8 * 4)%nat with 32%nat in *.
  assert (TX := C14_submillis4_exact ovf nd x HX ND ltac:(lia)). assert (TY := C14_submillis4_exact ovf nd y HY ND ltac:(lia)). cbn zeta in TX, TY.
  rewrite (proj2 (N.ltb_lt _ _) (proj2 SX)) in TX. rewrite SY in TY. replace (0 <? 4295) with true in TY by reflexivity.
  eexists. eexists. split; [exact TX|]. split; [exact TY|]. cbn [ep_nanos]. split.
  - rewrite before_be by (assumption || congruence). rewrite EX, EY, (radix _ _ _ _ _ CX CY), (radix _ _ _ _ _ BX BY). left. right. split; [congruence|lia].
  - rewrite D, M. lia.
Qed.
Print Assumptions C105_cds4_milli_refuted.

(* ---- CUC ---- *)
Lemma floor_mono : forall k k' m e, k <= k' -> (value_floor k m e <= value_floor k' m e)%Z.
Proof.
  intros k k' m e L. unfold value_floor. assert (H : (Z.of_N (k * m) <= Z.of_N (k' * m))%Z) by (apply N2Z.inj_le, N.mul_le_mono_r; exact L).
  destruct (0 <=? e)%Z eqn:E.
  - apply Z.mul_le_mono_nonneg_r; [apply Z.pow_nonneg; lia|exact H].
  - apply Z.div_le_mono; [apply Z.pow_pos_nonneg; lia|exact H].
Qed.
Lemma floor_step : forall k k' m e, (1 <= value_floor 1 m e)%Z -> k < k' -> (value_floor k m e < value_floor k' m e)%Z.
Proof.
  intros k k' m e ONE L. apply Z.lt_le_trans with (value_floor (k + 1) m e); [|apply floor_mono; lia].
  unfold value_floor in *. rewrite N.mul_1_l in ONE. replace ((k + 1) * m) with (k * m + m) by lia. rewrite N2Z.inj_add.
  destruct (0 <=? e)%Z eqn:E.
  - rewrite Z.mul_add_distr_r. lia.
  - assert (P : (0 < 2 ^ (- e))%Z) by (apply Z.pow_pos_nonneg; lia).
    assert (Q : (2 ^ (- e) <= Z.of_N m)%Z).
    { destruct (Z.lt_ge_cases (Z.of_N m) (2 ^ (- e))) as [X|X]; [|exact X]. rewrite Z.div_small in ONE by lia. lia. }
    apply Z.lt_le_trans with ((Z.of_N (k * m) + 1 * 2 ^ (- e)) / 2 ^ (- e))%Z; [rewrite Z.div_add by lia; lia|apply Z.div_le_mono; lia].
Qed.
(* The multiplier of the fine part keeps it below a second: never out of order; and in order if it is one nanosecond or more *)
Theorem C105_cuc : forall ovf nc nf m e x y tx ty, bytes_ok x -> bytes_ok y -> (1 <= nc <= 4)%nat -> (nf <= 3)%nat ->
  length x = (nc + nf)%nat -> length y = (nc + nf)%nat ->
  valid_binary 24 128 (S754_finite false m e) = true -> (value_floor (256 ^ N.of_nat nf - 1) (Npos m) e < 1000000000)%Z ->
  timecode_decode ovf (Cuc nc nf (Some (S754_finite false m e))) x = Val (Ok tx) ->
  timecode_decode ovf (Cuc nc nf (Some (S754_finite false m e))) y = Val (Ok ty) ->
  (bytes_before x y -> (ep_nanos tx <= ep_nanos ty)%Z) /\
  ((1 <= value_floor 1 (Npos m) e)%Z -> (bytes_before x y <-> (ep_nanos tx < ep_nanos ty)%Z) /\ (x = y <-> ep_nanos tx = ep_nanos ty)).
Proof.
  intros ovf nc nf m e x y tx ty HX HY NC NF LX LY VB SM EX EY.
  rewrite C15_cuc_value in EX, EY by (try assumption; lia). apply val_ok_inj in EX, EY. rewrite <- EX, <- EY. clear EX EY. cbn [ep_nanos].
  destruct (be_two x nc nf HX LX) as (FX & BX). destruct (be_two y nc nf HY LY) as (FY & BY).
  assert (MN : forall k, k < 256 ^ N.of_nat nf -> Z.min (value_floor k (Npos m) e) 18446744073709551615 = value_floor k (Npos m) e /\ (0 <= value_floor k (Npos m) e < 1000000000)%Z).
  { intros k K. assert (H := floor_mono k (256 ^ N.of_nat nf - 1) (Npos m) e ltac:(lia)). assert (H0 := floor_mono 0 k (Npos m) e ltac:(lia)).
    assert (Z0 : value_floor 0 (Npos m) e = 0%Z) by (unfold value_floor; rewrite N.mul_0_l; destruct (0 <=? e)%Z; reflexivity). lia. }
  destruct (MN _ BX) as [-> RX]. destruct (MN _ BY) as [-> RY].
  assert (OX := before_be x y HX HY ltac:(congruence)). rewrite FX, FY, (radix _ _ _ _ _ BX BY) in OX.
  assert (OY := before_be y x HY HX ltac:(congruence)). rewrite FX, FY, (radix _ _ _ _ _ BY BX) in OY.
  split.
  - intro B. apply OX in B. destruct B as [C|[C F]]; [lia|]. assert (H := floor_mono _ _ (Npos m) e (N.lt_le_incl _ _ F)). rewrite C. lia.
  - intro ONE. assert (O1 : bytes_before x y -> (epoch1958 + Z.of_N (field x 0 (8 * nc)) * 1000000000 + value_floor (field x (8 * nc) (8 * nf)) (Npos m) e <
      epoch1958 + Z.of_N (field y 0 (8 * nc)) * 1000000000 + value_floor (field y (8 * nc) (8 * nf)) (Npos m) e)%Z).
    { intro B. apply OX in B. destruct B as [C|[C F]]; [lia|]. assert (H := floor_step _ _ (Npos m) e ONE F). rewrite C. lia. }
    assert (O2 : bytes_before y x -> (epoch1958 + Z.of_N (field y 0 (8 * nc)) * 1000000000 + value_floor (field y (8 * nc) (8 * nf)) (Npos m) e <
      epoch1958 + Z.of_N (field x 0 (8 * nc)) * 1000000000 + value_floor (field x (8 * nc) (8 * nf)) (Npos m) e)%Z).
    { intro B. apply OY in B. destruct B as [C|[C F]]; [lia|]. assert (H := floor_step _ _ (Npos m) e ONE F). rewrite C. lia. }
    destruct (list_eq_dec N.eq_dec x y) as [->|NE].
    + split; split; intro H; try reflexivity; [apply O1 in H|exfalso; lia]; lia.
    + destruct (before_total x y HX HY ltac:(congruence) NE) as [B|B]; assert (Q := B); [apply O1 in Q|apply O2 in Q];
        (split; split; intro H; [| |contradiction|exfalso; lia]).
      * exact Q.
      * exact B.
      * apply O1 in H. exfalso. lia.
      * exfalso. lia.
Qed.
Print Assumptions C105_cuc.
(* Without a multiplier the fine part counts nanoseconds, and the order is the order of the codes *)
Theorem C105_cuc_default : forall ovf nc nf x y tx ty, bytes_ok x -> bytes_ok y -> (1 <= nc <= 4)%nat -> (nf <= 3)%nat ->
  length x = (nc + nf)%nat -> length y = (nc + nf)%nat ->
  timecode_decode ovf (Cuc nc nf None) x = Val (Ok tx) -> timecode_decode ovf (Cuc nc nf None) y = Val (Ok ty) ->
  (bytes_before x y <-> (ep_nanos tx < ep_nanos ty)%Z) /\ (x = y <-> ep_nanos tx = ep_nanos ty).
Proof.
  intros ovf nc nf x y tx ty HX HY NC NF LX LY EX EY.
  rewrite C15_cuc_default_mult in EX, EY by (try assumption; lia). apply val_ok_inj in EX, EY. rewrite <- EX, <- EY. clear EX EY. cbn [ep_nanos].
  destruct (be_two x nc nf HX LX) as (FX & BX). destruct (be_two y nc nf HY LY) as (FY & BY).
  assert (W : 256 ^ N.of_nat nf <= 16777216).
  { change 16777216 with (256 ^ N.of_nat 3). apply N.pow_le_mono_r; lia. }
  assert (OX := before_be x y HX HY ltac:(congruence)). rewrite FX, FY, (radix _ _ _ _ _ BX BY) in OX.
  assert (OY := before_be y x HY HX ltac:(congruence)). rewrite FX, FY, (radix _ _ _ _ _ BY BX) in OY.
  split; [rewrite OX; lia|]. split; [intros ->; reflexivity|]. intro E.
  destruct (list_eq_dec N.eq_dec x y) as [Q|NE]; [exact Q|]. exfalso.
  destruct (before_total x y HX HY ltac:(congruence) NE) as [B|B]; [apply OX in B|apply OY in B]; lia.
Qed.
Print Assumptions C105_cuc_default.
(* A multiplier with which the fine part reaches a second loses the order: the last code of a second is not before the first of the next *)
Theorem C105_cuc_wide_refuted : forall ovf nc nf m e x y, bytes_ok x -> bytes_ok y -> (1 <= nc <= 4)%nat -> (nf <= 3)%nat ->
  length x = (nc + nf)%nat -> length y = (nc + nf)%nat ->
  valid_binary 24 128 (S754_finite false m e) = true -> (1000000000 <= value_floor (256 ^ N.of_nat nf - 1) (Npos m) e)%Z ->
  field y 0 (8 * nc) = field x 0 (8 * nc) + 1 -> field x (8 * nc) (8 * nf) = 256 ^ N.of_nat nf - 1 -> field y (8 * nc) (8 * nf) = 0 ->
  exists tx ty, timecode_decode ovf (Cuc nc nf (Some (S754_finite false m e))) x = Val (Ok tx) /\
    timecode_decode ovf (Cuc nc nf (Some (S754_finite false m e))) y = Val (Ok ty) /\ bytes_before x y /\ (ep_nanos ty <= ep_nanos tx)%Z.
Proof.
  intros ovf nc nf m e x y HX HY NC NF LX LY VB WIDE C FX0 FY0.
  eexists. eexists. split; [apply C15_cuc_value; (assumption || lia)|]. split; [apply C15_cuc_value; (assumption || lia)|]. cbn [ep_nanos].
  destruct (be_two x nc nf HX LX) as (FX & BX). destruct (be_two y nc nf HY LY) as (FY & BY). split.
  - rewrite before_be by (assumption || congruence). rewrite FX, FY, (radix _ _ _ _ _ BX BY). left. lia.
  - rewrite FX0, FY0, C. assert (Z0 : value_floor 0 (Npos m) e = 0%Z) by (unfold value_floor; rewrite N.mul_0_l; destruct (0 <=? e)%Z; reflexivity).
    rewrite Z0, N2Z.inj_add. lia.
Qed.
Print Assumptions C105_cuc_wide_refuted.

(* ---- packets ---- *)
(* The time of a packet (8 bytes behind the primary header): of two packets whose codes are regular, the code that comes first is the earlier one *)
Theorem C105_packets : forall p q tp tq, bytes_ok (p_data p) -> bytes_ok (p_data q) ->
  (6 <= length (p_data p))%nat -> (6 <= length (p_data q))%nat -> cds_time p = Some tp -> cds_time q = Some tq ->
  let x := firstn 8 (skipn 6 (p_data p)) in let y := firstn 8 (skipn 6 (p_data q)) in
  regular 2 2 x -> regular 2 2 y -> (bytes_before x y <-> (tp < tq)%Z) /\ (x = y <-> tp = tq).
Proof.
  intros p q tp tq HP HQ LP LQ TP TQ x y RX RY.
  assert (L : forall r t, bytes_ok (p_data r) -> (6 <= length (p_data r))%nat -> cds_time r = Some t ->
    length (firstn 8 (skipn 6 (p_data r))) = 8%nat /\ timecode_decode true (Cds 2 2) (firstn 8 (skipn 6 (p_data r))) = Val (Ok (mkEpoch UTC t))).
  { intros r t HR LR TR. rewrite C49_packet_time in TR by assumption. cbn zeta in TR.
    destruct (8 <=? length (skipn 6 (p_data r)))%nat eqn:K; [|discriminate]. apply Nat.leb_le in K.
    assert (L8 : length (firstn 8 (skipn 6 (p_data r))) = 8%nat) by (rewrite firstn_length; lia). split; [exact L8|].
    rewrite C13_cds_value; [|apply bytes_ok_firstn, bytes_ok_skipn; assumption|lia|lia|rewrite L8; lia].
    assert (F : forall s n, (s + n <= 64)%nat -> field (firstn 8 (skipn 6 (p_data r))) s n = field (skipn 6 (p_data r)) s n).
    { intros s n H. rewrite <- (firstn_skipn 8 (skipn 6 (p_data r))) at 2. symmetry. apply field_app_l. rewrite L8. exact H. }
    rewrite !F by lia. change (8 * 2)%nat with 16%nat. change (16 + 32)%nat with 48%nat. congruence. }
  destruct (L p tp HP LP TP) as [LX DX]. destruct (L q tq HQ LQ TQ) as [LY DY].
  exact (C105_cds true 2 2 x y (mkEpoch UTC tp) (mkEpoch UTC tq) ltac:(apply bytes_ok_firstn, bytes_ok_skipn; assumption)
    ltac:(apply bytes_ok_firstn, bytes_ok_skipn; assumption) ltac:(lia) (or_intror eq_refl) LX LY RX RY DX DY).
Qed.
Print Assumptions C105_packets.

(* ---- the hypotheses are met ---- *)
(* day 1, 00:00:00.001002 and day 1, 23:59:59.999999; the leap second behind it and day 2 *)
Definition early_code : list N := [0;1; 0;0;0;1; 0;2].
Definition late_code : list N := [0;1; 5;38;91;255; 3;231].
Definition leap_code : list N := [0;1; 5;38;92;0; 0;5].
Definition next_code : list N := [0;2; 0;0;0;0; 0;3].
Example C105_cds_ex : bytes_before early_code late_code /\ regular 2 2 early_code /\ regular 2 2 late_code /\
  (exists tx ty, timecode_decode false (Cds 2 2) early_code = Val (Ok tx) /\ timecode_decode false (Cds 2 2) late_code = Val (Ok ty) /\ (ep_nanos tx < ep_nanos ty)%Z).
Proof.
  split; [apply before_tail, before_tail, before_head; [reflexivity|reflexivity]|]. split; [split; reflexivity|]. split; [split; reflexivity|].
  eexists. eexists. split; [vm_compute; reflexivity|]. split; [vm_compute; reflexivity|reflexivity].
Qed.
(* the leap second is later than the next day's beginning *)
Example C105_leap_second_at : exists tx ty, timecode_decode false (Cds 2 2) leap_code = Val (Ok tx) /\ timecode_decode false (Cds 2 2) next_code = Val (Ok ty) /\
  bytes_before leap_code next_code /\ (ep_nanos ty < ep_nanos tx)%Z.
Proof.
  assert (K : forall l, Forall (fun b => (b <? 256) = true) l -> bytes_ok l) by (intros l H; eapply Forall_impl; [|exact H]; intros b B; apply N.ltb_lt, B).
  destruct (C105_leap_second_refuted false 2 2 leap_code next_code ltac:(apply K; repeat constructor) ltac:(apply K; repeat constructor) ltac:(lia)
    (or_intror eq_refl) eq_refl eq_refl eq_refl eq_refl) as (tx & ty & A & B & C & D & E).
  exists tx, ty. repeat (split; [assumption|]). assert (X : ~ (ep_nanos tx < ep_nanos ty)%Z) by (rewrite D; vm_compute; discriminate).
  assert (Y : ep_nanos tx <> ep_nanos ty) by (rewrite E; vm_compute; discriminate). lia.
Qed.
Example C105_cds4_at : exists tx ty, timecode_decode false (Cds 2 4) [0;1; 0;0;0;7; 0;0;16;198] = Val (Ok tx) /\
  timecode_decode false (Cds 2 4) [0;1; 0;0;0;7; 0;0;16;199] = Val (Ok ty) /\
  bytes_before [0;1; 0;0;0;7; 0;0;16;198] [0;1; 0;0;0;7; 0;0;16;199] /\ (ep_nanos ty < ep_nanos tx)%Z.
Proof.
  assert (K : forall l, Forall (fun b => (b <? 256) = true) l -> bytes_ok l) by (intros l H; eapply Forall_impl; [|exact H]; intros b B; apply N.ltb_lt, B).
  apply C105_cds4_refuted; try reflexivity; try lia; apply K; repeat constructor.
Qed.
Example C105_cds4_milli_at : exists tx ty, timecode_decode true (Cds 2 4) [0;1; 0;0;0;7; 0;0;1;244] = Val (Ok tx) /\
  timecode_decode true (Cds 2 4) [0;1; 0;0;0;8; 0;0;0;0] = Val (Ok ty) /\
  bytes_before [0;1; 0;0;0;7; 0;0;1;244] [0;1; 0;0;0;8; 0;0;0;0] /\ (ep_nanos ty <= ep_nanos tx)%Z.
Proof.
  assert (K : forall l, Forall (fun b => (b <? 256) = true) l -> bytes_ok l) by (intros l H; eapply Forall_impl; [|exact H]; intros b B; apply N.ltb_lt, B).
  apply C105_cds4_milli_refuted; try reflexivity; try lia; try (split; [vm_compute; discriminate|reflexivity]); apply K; repeat constructor.
Qed.
(* a multiplier of 15.25 (in 1/4): 65535 * 15.25 is below a second, and it is at least 1; of 20000 with 2 bytes: above a second *)
Example C105_cuc_ex : valid_binary 24 128 (S754_finite false 15990784 (-20)) = true /\
  (value_floor (256 ^ N.of_nat 2 - 1) 15990784 (-20) < 1000000000)%Z /\ (1 <= value_floor 1 15990784 (-20))%Z /\
  (exists tx ty, timecode_decode false (Cuc 4 2 (Some (S754_finite false 15990784 (-20)))) [0;0;0;1; 255;255] = Val (Ok tx) /\
    timecode_decode false (Cuc 4 2 (Some (S754_finite false 15990784 (-20)))) [0;0;0;2; 0;0] = Val (Ok ty) /\
    (ep_nanos tx < ep_nanos ty)%Z).
Proof.
  split; [reflexivity|]. split; [reflexivity|]. split; [vm_compute; discriminate|].
  eexists. eexists. split; [vm_compute; reflexivity|]. split; [vm_compute; reflexivity|reflexivity].
Qed.
Example C105_cuc_default_ex : exists tx ty, timecode_decode false (Cuc 4 2 None) [0;0;0;1; 255;255] = Val (Ok tx) /\
    timecode_decode false (Cuc 4 2 None) [0;0;0;2; 0;0] = Val (Ok ty) /\ (ep_nanos tx < ep_nanos ty)%Z.
Proof. eexists. eexists. split; [vm_compute; reflexivity|]. split; [vm_compute; reflexivity|reflexivity]. Qed.
(* 15625 * 2^1 = 31250 ns a step, which is right for 32000 steps a second and not for 65536 *)
Example C105_cuc_wide_at : exists tx ty, timecode_decode false (Cuc 4 2 (Some (S754_finite false 16000000 (-9)))) [0;0;0;1; 255;255] = Val (Ok tx) /\
    timecode_decode false (Cuc 4 2 (Some (S754_finite false 16000000 (-9)))) [0;0;0;2; 0;0] = Val (Ok ty) /\
    bytes_before [0;0;0;1; 255;255] [0;0;0;2; 0;0] /\ (ep_nanos ty <= ep_nanos tx)%Z.
Proof.
  assert (K : forall l, Forall (fun b => (b <? 256) = true) l -> bytes_ok l) by (intros l H; eapply Forall_impl; [|exact H]; intros b B; apply N.ltb_lt, B).
  apply C105_cuc_wide_refuted; try reflexivity; try lia; try (apply K; repeat constructor). vm_compute. discriminate.
Qed.
Definition early_packet : packet := mkPacket (mkHeader 0 0 true 1 3 0 9) ([8;1;192;0;0;9] ++ early_code ++ [7;7]) 0.
Definition late_packet : packet := mkPacket (mkHeader 0 0 true 2 3 0 7) ([8;2;192;0;0;7] ++ late_code) 16.
Example C105_packets_ex : exists tp tq, cds_time early_packet = Some tp /\ cds_time late_packet = Some tq /\ (tp < tq)%Z.
Proof.
  assert (K : forall l, Forall (fun b => (b <? 256) = true) l -> bytes_ok l) by (intros l H; eapply Forall_impl; [|exact H]; intros b B; apply N.ltb_lt, B).
  destruct (cds_time early_packet) as [tp|] eqn:TP; [|vm_compute in TP; discriminate]. destruct (cds_time late_packet) as [tq|] eqn:TQ; [|vm_compute in TQ; discriminate].
  exists tp, tq. split; [reflexivity|]. split; [reflexivity|].
  apply (C105_packets early_packet late_packet tp tq); try assumption; try (apply K; repeat constructor); try (cbn; lia); try (split; reflexivity).
  apply before_tail, before_tail, before_head; reflexivity.
Qed.
