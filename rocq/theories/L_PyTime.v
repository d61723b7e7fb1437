(* Error bounds for M_PyTime.v *)
From Coq Require Import Reals Lra Lia ZArith.
From Flocq Require Import Core.
From Flocq Require Import BinarySingleNaN.
From Verif Require Import Base M_Packet M_Timecode M_PyTime.
Open Scope R_scope.

Notation fx := (SpecFloat.fexp 53 1024).
Notation rnd := (round radix2 (SpecFloat.fexp 53 1024) (round_mode mode_NE)).

#[local] Instance p53i : Prec_gt_0 53 := p53.
#[local] Instance e1024i : Prec_lt_emax 53 1024 := e1024.
#[local] Instance vexp : Valid_exp fx. Proof. apply (fexp_correct 53 1024 p53). Qed.

Lemma fx_def : forall e, fx e = Z.max (e - 53) (-1074). Proof. reflexivity. Qed.

(* rounding a number below 2^e *)
Lemma rnd_err : forall e x, (-1000 <= e)%Z -> Rabs x < bpow radix2 e -> Rabs (rnd x - x) <= / 2 * bpow radix2 (e - 53).
Proof.
  intros e x He H.
  destruct (Req_dec x 0) as [->|NZ].
  { rewrite round_0 by apply valid_rnd_N. rewrite Rminus_0_r, Rabs_R0. generalize (bpow_gt_0 radix2 (e - 53)). lra. }
  eapply Rle_trans; [apply (error_le_half_ulp radix2 fx (fun n => negb (Z.even n)))|].
  apply Rmult_le_compat_l; [lra|]. rewrite ulp_neq_0 by exact NZ. apply bpow_le. unfold cexp. rewrite fx_def.
  assert (M := mag_le_bpow radix2 x e NZ H). lia.
Qed.
Lemma rnd_bound : forall e x, (-1000 <= e)%Z -> Rabs x < bpow radix2 e -> Rabs (rnd x) <= bpow radix2 e.
Proof.
  intros e x He H. apply abs_round_le_generic; [apply vexp|apply valid_rnd_N| |lra].
  apply generic_format_bpow. rewrite fx_def. lia.
Qed.
Lemma rnd_int : forall n, (Z.abs n <= 2 ^ 53)%Z -> rnd (IZR n) = IZR n.
Proof.
  intros n H. apply round_generic; [apply valid_rnd_N|].
  destruct (Z.eq_dec n 0) as [->|NZ]; [apply generic_format_0|].
  destruct (Z.eq_dec (Z.abs n) (2 ^ 53)) as [E|NE].
  - assert (B : generic_format radix2 fx (bpow radix2 53)) by (apply generic_format_bpow; rewrite fx_def; lia).
    destruct (Z.abs_spec n) as [(_ & A)|(_ & A)].
    + replace (IZR n) with (bpow radix2 53); [exact B|]. rewrite <- A, E. rewrite <- IZR_Zpower by lia. reflexivity.
    + replace (IZR n) with (- bpow radix2 53); [apply generic_format_opp; exact B|]. rewrite <- IZR_Zpower by lia. rewrite <- opp_IZR. f_equal.
      change (Zpower radix2 53) with (2 ^ 53)%Z. lia.
  - apply (generic_format_FLT radix2 (-1074) 53). exists (Float radix2 n 0).
    + unfold F2R. cbn. lra.
    + cbn [Fnum]. change (Z.pow radix2 53) with (2 ^ 53)%Z. lia.
    + cbn [Fexp]. lia.
Qed.

Lemma small_lt : forall e x, (e <= 1000)%Z -> Rabs x <= bpow radix2 e -> Rlt_bool (Rabs x) (bpow radix2 1024) = true.
Proof. intros e x He H. apply Rlt_bool_true. eapply Rle_lt_trans; [exact H|]. apply bpow_lt. lia. Qed.

Lemma of_int_ok : forall n, (Z.abs n <= 2 ^ 53)%Z -> B2R (of_int n) = IZR n /\ is_finite (of_int n) = true.
Proof.
  intros n H. unfold of_int.
  assert (C := binary_normalize_correct 53 1024 p53 e1024 mode_NE n 0 false). cbv zeta in C.
  replace (F2R {| Fnum := n; Fexp := 0 |}) with (IZR n) in C by (unfold F2R; cbn; lra).
  rewrite rnd_int in C by exact H. rewrite (small_lt 53) in C; [|lia|].
  - destruct C as (A & B & _). split; assumption.
  - rewrite <- abs_IZR. rewrite <- IZR_Zpower by lia. apply IZR_le. exact H.
Qed.
Lemma dadd_ok : forall e x y, (-1000 <= e <= 1000)%Z -> is_finite x = true -> is_finite y = true -> Rabs (B2R x + B2R y) < bpow radix2 e ->
  B2R (dadd x y) = rnd (B2R x + B2R y) /\ is_finite (dadd x y) = true.
Proof.
  intros e x y He X Y H. assert (C := Bplus_correct 53 1024 p53 e1024 mode_NE x y X Y).
  rewrite (small_lt e) in C; [|lia|apply rnd_bound; [lia|exact H]]. destruct C as (A & B & _). split; assumption.
Qed.
Lemma dsub_ok : forall e x y, (-1000 <= e <= 1000)%Z -> is_finite x = true -> is_finite y = true -> Rabs (B2R x - B2R y) < bpow radix2 e ->
  B2R (dsub x y) = rnd (B2R x - B2R y) /\ is_finite (dsub x y) = true.
Proof.
  intros e x y He X Y H. assert (C := Bminus_correct 53 1024 p53 e1024 mode_NE x y X Y).
  rewrite (small_lt e) in C; [|lia|apply rnd_bound; [lia|exact H]]. destruct C as (A & B & _). split; assumption.
Qed.
Lemma dmul_ok : forall e x y, (-1000 <= e <= 1000)%Z -> is_finite x = true -> is_finite y = true -> Rabs (B2R x * B2R y) < bpow radix2 e ->
  B2R (dmul x y) = rnd (B2R x * B2R y) /\ is_finite (dmul x y) = true.
Proof.
  intros e x y He X Y H. assert (C := Bmult_correct 53 1024 p53 e1024 mode_NE x y).
  rewrite (small_lt e) in C; [|lia|apply rnd_bound; [lia|exact H]]. destruct C as (A & B & _). rewrite X, Y in B. split; assumption.
Qed.

Lemma d1e9_ok : B2R d1e9 = IZR 4835703278458517 * / IZR (2 ^ 82) /\ is_finite d1e9 = true.
Proof.
  split; [|vm_compute; reflexivity]. rewrite <- SF2R_B2SF.
  replace (B2SF d1e9) with (SpecFloat.S754_finite false 4835703278458517 (-82)) by (vm_compute; reflexivity).
  unfold SF2R, F2R. cbn [cond_Zopp Fnum Fexp]. f_equal.
Qed.
Lemma bp : forall k, (0 <= k)%Z -> bpow radix2 k = IZR (2 ^ k).
Proof. intros k H. rewrite <- IZR_Zpower by exact H. reflexivity. Qed.
Lemma bpn : forall k, (0 <= k)%Z -> bpow radix2 (- k) = / IZR (2 ^ k).
Proof. intros k H. rewrite bpow_opp, bp by exact H. reflexivity. Qed.

(* the part below a second *)
Lemma sub_ok : forall n, (0 <= n < 1000000000)%Z ->
  let y := dmul (of_int n) d1e9 in
  is_finite y = true /\ Rabs (B2R y - IZR n / 1000000000) <= / IZR (2 ^ 52) /\ 0 <= B2R y <= 1.
Proof.
  intros n H y. destruct (of_int_ok n) as (A & B); [lia|]. destruct d1e9_ok as (C & D).
  assert (N0 : 0 <= IZR n <= 999999999) by (split; apply IZR_le; lia).
  assert (P0 : 0 <= IZR n * (IZR 4835703278458517 * / IZR (2 ^ 82))) by (apply Rmult_le_pos; [lra|]; apply Rmult_le_pos; [lra|apply Rlt_le, Rinv_0_lt_compat; cbn; lra]).
  assert (C1 : Rabs (IZR 4835703278458517 * / IZR (2 ^ 82) - / 1000000000) <= / IZR (2 ^ 83)).
  { apply Rabs_le. change (2 ^ 82)%Z with 4835703278458516698824704%Z. change (2 ^ 83)%Z with 9671406556917033397649408%Z. split; lra. }
  assert (C2 : Rabs (IZR n * (IZR 4835703278458517 * / IZR (2 ^ 82)) - IZR n / 1000000000) <= / IZR (2 ^ 53)).
  { replace (IZR n * (IZR 4835703278458517 * / IZR (2 ^ 82)) - IZR n / 1000000000) with (IZR n * (IZR 4835703278458517 * / IZR (2 ^ 82) - / 1000000000)) by (unfold Rdiv; ring).
    rewrite Rabs_mult, (Rabs_pos_eq (IZR n)) by lra.
    eapply Rle_trans; [apply Rmult_le_compat; [lra|apply Rabs_pos|apply N0|exact C1]|].
    change (2 ^ 83)%Z with 9671406556917033397649408%Z. change (2 ^ 53)%Z with 9007199254740992%Z. lra. }
  assert (LT : Rabs (B2R (of_int n) * B2R d1e9) < bpow radix2 0).
  { rewrite A, C, Rabs_pos_eq by exact P0. apply Rabs_def2b in C2 || idtac. change (bpow radix2 0) with 1.
    apply Rabs_le_inv in C2. change (2 ^ 53)%Z with 9007199254740992%Z in C2. lra. }
  destruct (dmul_ok 0 (of_int n) d1e9) as (E & F); [lia|exact B|exact D|exact LT|]. fold y in E, F.
  assert (RE := rnd_err 0 _ ltac:(lia) LT). rewrite <- E in RE. rewrite A, C in RE. rewrite A, C in E.
  split; [exact F|]. split.
  - replace (B2R y - IZR n / 1000000000) with ((B2R y - IZR n * (IZR 4835703278458517 * / IZR (2 ^ 82))) + (IZR n * (IZR 4835703278458517 * / IZR (2 ^ 82)) - IZR n / 1000000000)) by ring.
    eapply Rle_trans; [apply Rabs_triang|]. eapply Rle_trans; [apply Rplus_le_compat; [exact RE|exact C2]|].
    change (0 - 53)%Z with (-(53))%Z. rewrite bpn by lia.
    change (2 ^ 53)%Z with 9007199254740992%Z. change (2 ^ 52)%Z with 4503599627370496%Z. lra.
  - rewrite E. split.
    + apply round_ge_generic; [apply vexp|apply valid_rnd_N|apply generic_format_0|exact P0].
    + apply round_le_generic; [apply vexp|apply valid_rnd_N| |].
      * change 1 with (bpow radix2 0). apply generic_format_bpow. rewrite fx_def. lia.
      * rewrite A, C, Rabs_pos_eq in LT by exact P0. change (bpow radix2 0) with 1 in LT. lra.
Qed.

Lemma to_seconds_parts : forall t, (Z.abs t <= 2 ^ 40 * 1000000000)%Z ->
  let s := (t / 1000000000)%Z in let n := (t mod 1000000000)%Z in
  exists x, is_finite x = true /\ B2R x = IZR s /\ to_seconds t = dadd x (dmul (of_int n) d1e9).
Proof.
  intros t H s n. unfold to_seconds.
  set (c := (t / NANOS_PER_CENTURY)%Z). set (r := (t mod NANOS_PER_CENTURY)%Z).
  assert (TR : t = (NANOS_PER_CENTURY * c + r)%Z) by (apply Z_div_mod_eq_full).
  assert (RB : (0 <= r < NANOS_PER_CENTURY)%Z) by (apply Z.mod_pos_bound; reflexivity).
  assert (E1 : s = (SECONDS_PER_CENTURY * c + r / 1000000000)%Z).
  { unfold s. rewrite TR. replace (NANOS_PER_CENTURY * c + r)%Z with (r + (SECONDS_PER_CENTURY * c) * 1000000000)%Z by (unfold NANOS_PER_CENTURY, SECONDS_PER_CENTURY; ring).
    rewrite Z.div_add by lia. ring. }
  assert (E2 : n = (r mod 1000000000)%Z).
  { unfold n. rewrite TR. replace (NANOS_PER_CENTURY * c + r)%Z with (r + (SECONDS_PER_CENTURY * c) * 1000000000)%Z by (unfold NANOS_PER_CENTURY, SECONDS_PER_CENTURY; ring).
    apply Z.mod_add. lia. }
  assert (RS : (0 <= r / 1000000000 < SECONDS_PER_CENTURY)%Z).
  { unfold NANOS_PER_CENTURY in RB. unfold SECONDS_PER_CENTURY. split; [apply Z.div_pos; lia|]. apply Z.div_lt_upper_bound; lia. }
  assert (CB : (Z.abs c <= 1000)%Z) by (unfold NANOS_PER_CENTURY in *; lia).
  rewrite <- E2.
  destruct (of_int_ok (r / 1000000000)) as (A & B); [unfold SECONDS_PER_CENTURY in RS; lia|].
  destruct (c =? 0)%Z eqn:CZ.
  - apply Z.eqb_eq in CZ. exists (of_int (r / 1000000000)). split; [exact B|]. split; [|reflexivity]. rewrite A, E1, CZ. f_equal; lia.
  - exists (dadd (dmul (of_int c) (of_int SECONDS_PER_CENTURY)) (of_int (r / 1000000000))).
    destruct (of_int_ok c) as (A1 & B1); [lia|]. destruct (of_int_ok SECONDS_PER_CENTURY) as (A2 & B2); [unfold SECONDS_PER_CENTURY; lia|].
    assert (CS : (Z.abs (c * SECONDS_PER_CENTURY) < 2 ^ 50)%Z) by (unfold SECONDS_PER_CENTURY; lia).
    destruct (dmul_ok 50 (of_int c) (of_int SECONDS_PER_CENTURY)) as (A3 & B3); [lia|exact B1|exact B2| |].
    { rewrite A1, A2, <- mult_IZR, <- abs_IZR, bp by lia. apply IZR_lt. exact CS. }
    rewrite A1, A2, <- mult_IZR, rnd_int in A3 by lia.
    assert (SS : (Z.abs (c * SECONDS_PER_CENTURY + r / 1000000000) < 2 ^ 51)%Z) by (unfold SECONDS_PER_CENTURY in *; lia).
    destruct (dadd_ok 51 (dmul (of_int c) (of_int SECONDS_PER_CENTURY)) (of_int (r / 1000000000))) as (A4 & B4); [lia|exact B3|exact B| |].
    { rewrite A3, A, <- plus_IZR, <- abs_IZR, bp by lia. apply IZR_lt. exact SS. }
    rewrite A3, A, <- plus_IZR, rnd_int in A4 by lia.
    split; [exact B4|]. split; [|reflexivity]. rewrite A4. f_equal. lia.
Qed.

(* how far the number of seconds is off, for times below 2^k seconds *)
Lemma to_seconds_err : forall k t, (20 <= k <= 39)%Z -> (Z.abs t <= (2 ^ k - 2) * 1000000000)%Z ->
  is_finite (to_seconds t) = true /\
  Rabs (B2R (to_seconds t) - IZR t / 1000000000) <= / 2 * bpow radix2 (k - 53) + / IZR (2 ^ 52) /\
  Rabs (B2R (to_seconds t)) <= bpow radix2 k.
Proof.
  intros k t K H.
  assert (PK : (2 ^ k <= 2 ^ 39)%Z) by (apply Z.pow_le_mono_r; lia).
  destruct (to_seconds_parts t) as (x & X1 & X2 & ->); [lia|].
  assert (NB : (0 <= t mod 1000000000 < 1000000000)%Z) by (apply Z.mod_pos_bound; lia).
  assert (TS : t = (1000000000 * (t / 1000000000) + t mod 1000000000)%Z) by (apply Z_div_mod_eq_full).
  set (s := (t / 1000000000)%Z) in *. set (n := (t mod 1000000000)%Z) in *.
  destruct (sub_ok n NB) as (Y1 & Y2 & Y3). set (y := dmul (of_int n) d1e9) in *.
  assert (SB : (- 2 ^ k + 1 <= s <= 2 ^ k - 2)%Z) by lia.
  assert (LT : Rabs (B2R x + B2R y) < bpow radix2 k).
  { rewrite X2, bp by lia. assert (L1 : IZR (- 2 ^ k + 1) <= IZR s) by (apply IZR_le; lia). assert (L2 : IZR s <= IZR (2 ^ k - 2)) by (apply IZR_le; lia).
    rewrite plus_IZR, opp_IZR in L1. rewrite minus_IZR in L2. apply Rabs_def1; lra. }
  destruct (dadd_ok k x y) as (A & B); [lia|exact X1|exact Y1|exact LT|].
  split; [exact B|]. split.
  - rewrite A. assert (RE := rnd_err k _ ltac:(lia) LT).
    assert (TR : IZR t / 1000000000 = IZR s + IZR n / 1000000000) by (rewrite TS, plus_IZR, mult_IZR; field).
    replace (rnd (B2R x + B2R y) - IZR t / 1000000000) with ((rnd (B2R x + B2R y) - (B2R x + B2R y)) + (B2R y - IZR n / 1000000000)) by (rewrite TR, X2; ring).
    eapply Rle_trans; [apply Rabs_triang|]. apply Rplus_le_compat; assumption.
  - rewrite A. apply rnd_bound; [lia|exact LT].
Qed.

Lemma trunc_close : forall x, Rabs (x - IZR (Ztrunc x)) < 1.
Proof.
  intros x. unfold Ztrunc. destruct (Rlt_bool_spec x 0) as [H|H].
  - assert (A := Zceil_ub x). assert (B := Zceil_lb x). apply Rabs_def1; lra.
  - assert (A := Zfloor_lb x). assert (B := Zfloor_ub x). apply Rabs_def1; lra.
Qed.
Lemma fromtimestamp_err : forall d, is_finite d = true -> Rabs (B2R d) <= bpow radix2 35 ->
  exists u, fromtimestamp d = Some u /\ Rabs (IZR u - 1000000 * B2R d) <= / 2 + / IZR (2 ^ 32).
Proof.
  intros d F B. unfold fromtimestamp. rewrite F. cbn [negb].
  assert (T : IZR (Btrunc d) = IZR (Ztrunc (B2R d))) by (rewrite (Btrunc_correct 53 1024 e1024), round_FIX_IZR; reflexivity).
  assert (TC := trunc_close (B2R d)). rewrite <- T in TC.
  set (i := Btrunc d) in *.
  assert (IB : (Z.abs i <= 2 ^ 35 + 1)%Z).
  { apply le_IZR. rewrite abs_IZR, plus_IZR, <- bp by lia. apply Rabs_le_inv in B. apply Rabs_def2 in TC. apply Rabs_le. lra. }
  destruct (of_int_ok i) as (A1 & F1); [lia|].
  assert (LT1 : Rabs (B2R d - B2R (of_int i)) < bpow radix2 0) by (rewrite A1; exact TC).
  destruct (dsub_ok 0 d (of_int i)) as (A2 & F2); [lia|exact F|exact F1|exact LT1|].
  assert (E2 := rnd_err 0 _ ltac:(lia) LT1). assert (B2 := rnd_bound 0 _ ltac:(lia) LT1). rewrite <- A2 in E2, B2. rewrite A1 in E2.
  change (bpow radix2 0) with 1 in B2. change (0 - 53)%Z with (-(53))%Z in E2. rewrite bpn in E2 by lia.
  set (f := dsub d (of_int i)) in *.
  destruct (of_int_ok 1000000) as (A3 & F3); [lia|].
  assert (LT2 : Rabs (B2R f * B2R (of_int 1000000)) < bpow radix2 20).
  { rewrite A3, Rabs_mult, (Rabs_pos_eq 1000000), bp by (lra || lia). change (2 ^ 20)%Z with 1048576%Z. assert (0 <= Rabs (B2R f)) by apply Rabs_pos. lra. }
  destruct (dmul_ok 20 f (of_int 1000000)) as (A4 & F4); [lia|exact F2|exact F3|exact LT2|].
  assert (E4 := rnd_err 20 _ ltac:(lia) LT2). rewrite <- A4 in E4. rewrite A3 in E4. change (20 - 53)%Z with (-(33))%Z in E4. rewrite bpn in E4 by lia.
  set (g := dmul f (of_int 1000000)) in *.
  destruct (Bnearbyint_correct 53 1024 e1024 mode_NE g) as (A5 & _). rewrite round_FIX_IZR in A5.
  assert (E5 := Znearest_half (fun n => negb (Z.even n)) (B2R g)).
  assert (T6 : IZR (Btrunc (Bnearbyint (prec_lt_emax_ := e1024) mode_NE g)) = IZR (round_mode mode_NE (B2R g))).
  { rewrite (Btrunc_correct 53 1024 e1024), round_FIX_IZR, A5, Ztrunc_IZR. reflexivity. }
  change (round_mode mode_NE (B2R g)) with (Znearest (fun n => negb (Z.even n)) (B2R g)) in T6. rewrite <- T6 in E5.
  set (u := Btrunc (Bnearbyint (prec_lt_emax_ := e1024) mode_NE g)) in *.
  assert (SUM : Rabs (IZR (i * 1000000 + u) - 1000000 * B2R d) <= / 2 + / IZR (2 ^ 32)).
  { rewrite plus_IZR, mult_IZR.
    change (2 ^ 53)%Z with 9007199254740992%Z in E2. change (2 ^ 33)%Z with 8589934592%Z in E4. change (2 ^ 32)%Z with 4294967296%Z.
    apply Rabs_le_inv in E2, E4, E5. apply Rabs_le. lra. }
  assert (RG : forall s, (i - 1 <= s <= i + 1)%Z -> (MIN_SECOND <=? s)%Z && (s <=? MAX_SECOND)%Z = true).
  { intros s Hs. unfold MIN_SECOND, MAX_SECOND. apply andb_true_iff. split; apply Z.leb_le; lia. }
  destruct (1000000 <=? u)%Z; [|destruct (u <? 0)%Z]; rewrite RG by lia; (eexists; split; [reflexivity|]).
  - replace ((i + 1) * 1000000 + (u - 1000000))%Z with (i * 1000000 + u)%Z by ring. exact SUM.
  - replace ((i - 1) * 1000000 + (u + 1000000))%Z with (i * 1000000 + u)%Z by ring. exact SUM.
  - exact SUM.
Qed.

(* datetime of a time below 2^k seconds *)
Lemma datetime_err : forall k t, (20 <= k <= 35)%Z -> (Z.abs t <= (2 ^ k - 2) * 1000000000)%Z ->
  exists u, fromtimestamp (to_seconds t) = Some u /\
    Rabs (IZR u - IZR t / 1000) <= / 2 + 500000 * bpow radix2 (k - 53) + / 1000000000.
Proof.
  intros k t K H. destruct (to_seconds_err k t) as (A & B & C); [lia|exact H|].
  destruct (fromtimestamp_err (to_seconds t)) as (u & D & E); [exact A| |].
  { eapply Rle_trans; [exact C|]. apply bpow_le. lia. }
  exists u. split; [exact D|].
  change (2 ^ 52)%Z with 4503599627370496%Z in B. change (2 ^ 32)%Z with 4294967296%Z in E.
  set (b := bpow radix2 (k - 53)) in *. apply Rabs_le_inv in B, E. apply Rabs_le. lra.
Qed.
