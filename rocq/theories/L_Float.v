(* Exactness of small products in double precision *)
From Coq Require Import Floats.SpecFloat.
From Verif Require Import Base M_Packet M_Timecode.
Open Scope Z_scope.

Lemma digits2_log2 : forall p, Zpos (digits2_pos p) = Z.log2 (Zpos p) + 1.
Proof.
  induction p as [p IH|p IH|]; cbn [digits2_pos]; [| |reflexivity].
  - rewrite Pos2Z.inj_succ, IH. change (Zpos p~1) with (2 * Zpos p + 1). rewrite Z.log2_succ_double by lia. lia.
  - rewrite Pos2Z.inj_succ, IH. change (Zpos p~0) with (2 * Zpos p). rewrite Z.log2_double by lia. lia.
Qed.
Lemma Zdigits2_log2 : forall m, 0 < m -> Zdigits2 m = Z.log2 m + 1.
Proof. intros [|p|p] H; try lia. apply digits2_log2. Qed.

Lemma shr_1_even : forall m, 0 < m -> shr_1 (Build_shr_record (2 * m) false false) = Build_shr_record m false false.
Proof. intros [|p|p] H; try lia. reflexivity. Qed.

Lemma iter_pos_succ_iter : forall A (f : A -> A) p x, SpecFloat.iter_pos f p x = Pos.iter f x p.
Proof.
  intros A f p. induction p as [p IH|p IH|]; intro x; cbn; [| |reflexivity].
  - rewrite !IH. rewrite <- !Pos.iter_swap. reflexivity.
  - rewrite !IH. reflexivity.
Qed.

Lemma iter_shr : forall p m, 0 < m ->
  SpecFloat.iter_pos shr_1 p (Build_shr_record (m * 2 ^ Zpos p) false false) = Build_shr_record m false false.
Proof.
  intros p. rewrite <- (Pos2Nat.id p). generalize (Pos2Nat.is_pos p). generalize (Pos.to_nat p). clear p.
  intros n Hn. induction n as [|n IH]; [lia|]. intros m Hm.
  destruct n as [|n].
  - cbn [Pos.of_nat SpecFloat.iter_pos]. change (2 ^ 1) with 2. rewrite Z.mul_comm. apply shr_1_even. exact Hm.
  - rewrite iter_pos_succ_iter. replace (Pos.of_nat (S (S n))) with (Pos.succ (Pos.of_nat (S n))) by reflexivity.
    rewrite Pos.iter_succ_r. rewrite Pos2Z.inj_succ, Z.pow_succ_r by lia.
    replace (m * (2 * 2 ^ Zpos (Pos.of_nat (S n)))) with (2 * (m * 2 ^ Zpos (Pos.of_nat (S n)))) by ring.
    rewrite shr_1_even by (assert (0 < 2 ^ Zpos (Pos.of_nat (S n))) by lia; nia).
    rewrite <- iter_pos_succ_iter. apply IH; lia.
Qed.

Lemma shr_exact : forall m e n, 0 < m -> 0 <= n ->
  shr (Build_shr_record (m * 2 ^ n) false false) e n = (Build_shr_record m false false, e + n).
Proof.
  intros m e n Hm Hn. destruct n as [|p|p]; [|cbn [shr]; rewrite iter_shr by assumption; reflexivity|lia].
  cbn [shr]. rewrite Z.pow_0_r, Z.mul_1_r, Z.add_0_r. reflexivity.
Qed.
Lemma shr_none : forall r e n, n <= 0 -> shr r e n = (r, e).
Proof. intros r e [|p|p] H; [reflexivity|lia|reflexivity]. Qed.

Definition fe (e : Z) : Z := fexp 53 1024 e.
Lemma fe_def : forall e, fe e = Z.max (e - 53) (-1074). Proof. reflexivity. Qed.

Lemma round_aux_exact : forall s q E k, 0 < q < 2 ^ 53 -> -1074 <= E <= 900 -> 0 <= k ->
  exists j m, 0 <= j /\ Zpos m = q * 2 ^ j /\
  binary_round_aux 53 1024 s (q * 2 ^ k) (E - k) loc_Exact = S754_finite s m (E - j).
Proof.
  intros s q E k Hq HE Hk.
  assert (P : forall x, 0 <= x -> 0 < 2 ^ x) by (intros; lia).
  assert (D : forall x, 0 <= x -> Zdigits2 (q * 2 ^ x) = Z.log2 q + 1 + x).
  { intros x Hx. rewrite Zdigits2_log2 by (specialize (P x Hx); nia). rewrite Z.log2_mul_pow2 by lia. lia. }
  assert (LQ : 0 <= Z.log2 q < 53) by (split; [apply Z.log2_nonneg|apply Z.log2_lt_pow2; lia]).
  unfold binary_round_aux, shr_fexp. cbn [shr_record_of_loc]. rewrite D by assumption.
  replace (Z.log2 q + 1 + k + (E - k)) with (Z.log2 q + 1 + E) by lia.
  fold (fe (Z.log2 q + 1 + E)). set (F := fe (Z.log2 q + 1 + E)).
  assert (HF : F <= E) by (unfold F; rewrite fe_def; lia).
  assert (HF2 : F <= 900) by lia.
  destruct (Z.le_gt_cases (F - (E - k)) 0) as [C|C].
  - rewrite shr_none by exact C. cbn [shr_m loc_of_shr_record round_nearest_even]. rewrite D by assumption.
    replace (Z.log2 q + 1 + k + (E - k)) with (Z.log2 q + 1 + E) by lia. fold (fe (Z.log2 q + 1 + E)). fold F.
    rewrite shr_none by exact C. cbn [shr_m].
    assert (0 < q * 2 ^ k) by (specialize (P k Hk); nia).
    destruct (q * 2 ^ k) as [|m|m] eqn:EM; try lia.
    exists k, m. split; [exact Hk|]. split; [symmetry; exact EM|].
    replace (Zle_bool (E - k) (1024 - 53)) with true by (symmetry; apply Zle_is_le_bool; lia). reflexivity.
  - set (n := F - (E - k)) in *.
    replace (q * 2 ^ k) with ((q * 2 ^ (k - n)) * 2 ^ n)
      by (rewrite <- Z.mul_assoc, <- Z.pow_add_r by lia; do 2 f_equal; lia).
    assert (0 < q * 2 ^ (k - n)) by (specialize (P (k - n) ltac:(lia)); nia).
    rewrite shr_exact by lia. cbn [shr_m loc_of_shr_record round_nearest_even]. rewrite D by lia.
    replace (Z.log2 q + 1 + (k - n) + (E - k + n)) with (Z.log2 q + 1 + E) by lia. fold (fe (Z.log2 q + 1 + E)). fold F.
    rewrite shr_none by lia. cbn [shr_m].
    destruct (q * 2 ^ (k - n)) as [|m|m] eqn:EM; try lia.
    exists (k - n), m. split; [lia|]. split; [symmetry; exact EM|].
    replace (Zle_bool (E - k + n) (1024 - 53)) with true by (symmetry; apply Zle_is_le_bool; lia).
    f_equal. lia.
Qed.

Lemma normalize_exact : forall sz p e, Zpos p < 2 ^ 53 -> -1074 <= e <= 900 ->
  exists j m, 0 <= j /\ Zpos m = Zpos p * 2 ^ j /\
  binary_normalize 53 1024 (Zpos p) e sz = S754_finite false m (e - j).
Proof.
  intros sz p e Hp He. cbn [binary_normalize]. unfold binary_round, shl_align.
  fold (fe (Zpos (digits2_pos p) + e)).
  destruct (fe (Zpos (digits2_pos p) + e) - e) as [|d|d] eqn:E.
  - destruct (round_aux_exact false (Zpos p) e 0 ltac:(lia) He ltac:(lia)) as (j & m & H1 & H2 & H3).
    rewrite Z.pow_0_r, Z.mul_1_r, Z.sub_0_r in H3. exists j, m. auto.
  - destruct (round_aux_exact false (Zpos p) e 0 ltac:(lia) He ltac:(lia)) as (j & m & H1 & H2 & H3).
    rewrite Z.pow_0_r, Z.mul_1_r, Z.sub_0_r in H3. exists j, m. auto.
  - destruct (round_aux_exact false (Zpos p) e (Zpos d) ltac:(lia) He ltac:(lia)) as (j & m & H1 & H2 & H3).
    rewrite shift_pos_correct, Z.mul_comm.
    replace (fe (Zpos (digits2_pos p) + e)) with (e - Zpos d) by lia.
    change (Z.pow_pos 2 d) with (2 ^ Zpos d). exists j, m. auto.
Qed.

Lemma trunc_scale : forall m q j E, 0 <= j -> Zpos m = Z.of_N q * 2 ^ j ->
  trunc_dyadic (Npos m) (E - j) = trunc_dyadic q E.
Proof.
  intros m q j E Hj Hm.
  assert (EM : Npos m = (q * 2 ^ Z.to_N j)%N).
  { apply N2Z.inj. rewrite N2Z.inj_mul, N2Z.inj_pow, Z2N.id by assumption. exact Hm. }
  rewrite EM. unfold trunc_dyadic.
  destruct (0 <=? E - j) eqn:C1; destruct (0 <=? E) eqn:C2; try lia.
  - rewrite <- N.mul_assoc, <- N.pow_add_r. do 2 f_equal. lia.
  - (* E >= 0 > E - j *)
    replace (Z.to_N j) with (Z.to_N E + Z.to_N (- (E - j)))%N by lia.
    rewrite N.pow_add_r, N.mul_assoc. apply N.div_mul. apply N.pow_nonzero. lia.
  - replace (Z.to_N (- (E - j))) with (Z.to_N (- E) + Z.to_N j)%N by lia.
    rewrite N.pow_add_r. apply N.div_mul_cancel_r; apply N.pow_nonzero; lia.
Qed.

(* For an integer below 2^24 and a finite single precision multiplier nothing is lost *)
Lemma fine_product_exact : forall fine m e,
  (fine < 2 ^ 24)%N -> valid_binary 24 128 (S754_finite false m e) = true ->
  fine_product fine (S754_finite false m e) = N.min (trunc_dyadic (fine * Npos m) e) U64_MAX.
Proof.
  intros fine m e Hf Hv. cbn [valid_binary] in Hv. unfold bounded, canonical_mantissa in Hv.
  apply andb_true_iff in Hv. destruct Hv as [V1 V2].
  apply Zeq_bool_eq in V1. apply Zle_is_le_bool in V2. rewrite digits2_log2 in V1.
  unfold fexp, emin in V1.
  assert (HE : -149 <= e <= 104) by lia.
  assert (HM : Zpos m < 2 ^ 24).
  { destruct (Z.lt_ge_cases (Zpos m) (2 ^ 24)) as [|X]; [assumption|].
    apply Z.log2_le_mono in X. rewrite Z.log2_pow2 in X by lia. lia. }
  unfold fine_product. destruct fine as [|f].
  - unfold f64_of_u64, f64_of_f32. change (binary_normalize 53 1024 (Z.of_N 0) 0 false) with (S754_zero false).
    destruct (normalize_exact false m e) as (j & m' & J & M & Eq); [lia|lia|]. rewrite Eq. cbn [SFmul u64_of_f64].
    rewrite N.mul_0_l. unfold trunc_dyadic. destruct (0 <=? e); rewrite ?N.mul_0_l, ?N.div_0_l by (apply N.pow_nonzero; lia); reflexivity.
  - unfold f64_of_u64, f64_of_f32. cbn [Z.of_N].
    destruct (normalize_exact false f 0) as (j1 & m1 & J1 & M1 & E1); [lia|lia|]. rewrite E1.
    destruct (normalize_exact false m e) as (j2 & m2 & J2 & M2 & E2); [lia|lia|]. rewrite E2. cbn [SFmul xorb].
    destruct (round_aux_exact false (Zpos f * Zpos m) e (j1 + j2)) as (j & q & J & M & E3); [nia|lia|lia|].
    replace (Zpos (m1 * m2)) with (Zpos f * Zpos m * 2 ^ (j1 + j2)).
    2:{ rewrite Pos2Z.inj_mul, M1, M2, Z.pow_add_r by lia. ring. }
    replace (0 - j1 + (e - j2)) with (e - (j1 + j2)) by lia.
    rewrite E3. cbn [u64_of_f64]. f_equal. apply trunc_scale; [exact J|]. rewrite M. reflexivity.
Qed.
