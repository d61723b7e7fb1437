(* Lemmas about bit strings *)
From Verif Require Import Base L_Base S_Bits.
Open Scope N_scope.

Definition b2n (b : bool) : N := if b then 1 else 0.

Lemma val_app : forall a b, val (a ++ b) = val a * 2 ^ N.of_nat (length b) + val b.
Proof.
  intros a b. unfold val. rewrite fold_left_app.
  generalize (fold_left (fun a b => 2 * a + (if b : bool then 1 else 0)) a 0). intros acc.
  revert acc. induction b as [|x b IH] using rev_ind; intros acc.
  - cbn. lia.
  - rewrite !fold_left_app. cbn [fold_left]. rewrite IH.
    rewrite app_length. cbn [length]. rewrite Nat.add_1_r, Nat2N.inj_succ, N.pow_succ_r'. ring.
Qed.

Lemma val_bound : forall a, val a < 2 ^ N.of_nat (length a).
Proof.
  induction a as [|x a IH] using rev_ind; [cbn; lia|].
  rewrite val_app, app_length. cbn [length]. change (2 ^ N.of_nat 1) with 2.
  rewrite Nat.add_1_r, Nat2N.inj_succ, N.pow_succ_r'.
  assert (val [x] <= 1) by (destruct x; cbn; lia).
  revert IH. generalize (2 ^ N.of_nat (length a)). intros. nia.
Qed.

Lemma val_nil : val [] = 0. Proof. reflexivity. Qed.

Lemma val_inj : forall a b, length a = length b -> val a = val b -> a = b.
Proof.
  induction a as [|x a IH] using rev_ind; intros b HL HV.
  - destruct b; [reflexivity|discriminate].
  - destruct b as [|y b _] using rev_ind; [rewrite app_length in HL; cbn in HL; lia|].
    rewrite !app_length in HL. cbn in HL.
    rewrite !val_app in HV. cbn [length] in HV. replace (2 ^ N.of_nat 1) with 2 in HV by reflexivity.
    assert (val [x] = b2n x) by (destruct x; reflexivity).
    assert (val [y] = b2n y) by (destruct y; reflexivity).
    rewrite H, H0 in HV.
    assert (val a = val b /\ b2n x = b2n y) as [E1 E2] by (destruct x, y; cbn in *; lia).
    f_equal; [apply IH; [lia|exact E1]|]. destruct x, y; cbn in E2; congruence.
Qed.

Lemma val_bits8 : forall b, b < 256 -> val (bits8 b) = b.
Proof.
  intros b H.
  assert (forall n, (n < 256)%nat -> val (bits8 (N.of_nat n)) = N.of_nat n) as A.
  { intros n Hn.
    assert (forallb (fun n => val (bits8 (N.of_nat n)) =? N.of_nat n) (seq 0 256) = true) as C by (vm_compute; reflexivity).
    rewrite forallb_forall in C. apply N.eqb_eq. apply C. apply in_seq. lia. }
  specialize (A (N.to_nat b)). rewrite N2Nat.id in A. apply A. lia.
Qed.

Lemma bits8_length : forall b, length (bits8 b) = 8%nat. Proof. reflexivity. Qed.
Lemma bits_length : forall bs, length (bits bs) = (8 * length bs)%nat.
Proof. induction bs; cbn [bits flat_map length]; [reflexivity|]. rewrite app_length. unfold bits in IHbs. rewrite IHbs, bits8_length. lia. Qed.
Lemma bits_app : forall a b, bits (a ++ b) = bits a ++ bits b.
Proof. intros. unfold bits. apply flat_map_app. Qed.
Lemma bits_cons : forall x b, bits (x :: b) = bits8 x ++ bits b.
Proof. reflexivity. Qed.

Lemma bits8_inj : forall a b, a < 256 -> b < 256 -> bits8 a = bits8 b -> a = b.
Proof. intros. rewrite <- (val_bits8 a), <- (val_bits8 b) by assumption. congruence. Qed.
Lemma bits_inj : forall a b, bytes_ok a -> bytes_ok b -> bits a = bits b -> a = b.
Proof.
  induction a as [|x a IH]; intros [|y b] Ha Hb H.
  - reflexivity.
  - apply (f_equal (@length bool)) in H. rewrite !bits_length in H. cbn in H. lia.
  - apply (f_equal (@length bool)) in H. rewrite !bits_length in H. cbn in H. lia.
  - rewrite !bits_cons in H. inversion Ha; inversion Hb; subst.
    apply (f_equal (firstn 8)) in H as H1. rewrite !firstn_app_le in H1 by (rewrite bits8_length; lia).
    rewrite !firstn_all2 in H1 by (rewrite bits8_length; lia).
    apply (f_equal (skipn 8)) in H. rewrite !skipn_app_ge in H by (rewrite bits8_length; lia). cbn [skipn Nat.sub] in H.
    rewrite !bits8_length in H. cbn in H.
    f_equal; [apply bits8_inj; assumption|]. apply IH; assumption.
Qed.

Lemma be_app : forall a b, be (a ++ b) = be a * 2 ^ N.of_nat (8 * length b) + be b.
Proof.
  intros a b. unfold be. rewrite fold_left_app.
  generalize (fold_left (fun a b => 256 * a + b) a 0). intros acc. revert acc.
  induction b as [|x b IH] using rev_ind; intros acc; [cbn; lia|].
  rewrite !fold_left_app. cbn [fold_left]. rewrite IH.
  rewrite app_length. cbn [length]. replace (8 * (length b + 1))%nat with (8 + 8 * length b)%nat by lia.
  rewrite Nat2N.inj_add, N.pow_add_r. replace (2 ^ N.of_nat 8) with 256 by reflexivity. ring.
Qed.
Lemma val_bits : forall bs, bytes_ok bs -> val (bits bs) = be bs.
Proof.
  induction bs as [|x bs IH] using rev_ind; intros H; [reflexivity|].
  apply bytes_ok_app in H. destruct H as [H1 H2]. inversion H2; subst.
  rewrite bits_app, val_app, IH, be_app by assumption. f_equal.
  - unfold bits. cbn [flat_map]. rewrite app_nil_r. rewrite val_bits8 by assumption. unfold be. cbn [fold_left]. lia.
Qed.

Lemma val_middle : forall l s n, (s + n <= length l)%nat ->
  val (firstn n (skipn s l)) = (val l / 2 ^ N.of_nat (length l - s - n)) mod 2 ^ N.of_nat n.
Proof.
  intros l s n H.
  set (a := firstn s l). set (m := firstn n (skipn s l)). set (c := skipn n (skipn s l)).
  assert (E : l = a ++ m ++ c) by (unfold a, m, c; rewrite !firstn_skipn; reflexivity).
  assert (Lm : length m = n) by (unfold m; rewrite firstn_length, skipn_length; lia).
  assert (Lc : length c = (length l - s - n)%nat) by (unfold c; rewrite !skipn_length; lia).
  rewrite E at 1. rewrite !val_app. rewrite <- Lc.
  set (P := 2 ^ N.of_nat (length c)). rewrite app_length, Lm, Nat2N.inj_add, N.pow_add_r. fold P.
  assert (P <> 0) by (apply N.pow_nonzero; lia).
  assert (val c < P) by apply val_bound.
  replace (val a * (2 ^ N.of_nat n * P) + (val m * P + val c))
    with (val c + (val a * 2 ^ N.of_nat n + val m) * P) by ring.
  rewrite N.div_add by assumption. rewrite (N.div_small (val c)) by assumption. rewrite N.add_0_l.
  rewrite N.add_comm, N.mod_add by (apply N.pow_nonzero; lia).
  rewrite N.mod_small; [reflexivity|]. rewrite <- Lm. apply val_bound.
Qed.

Lemma field_be : forall bs s n, bytes_ok bs -> (s + n <= 8 * length bs)%nat ->
  field bs s n = (be bs / 2 ^ N.of_nat (8 * length bs - s - n)) mod 2 ^ N.of_nat n.
Proof.
  intros. unfold field. rewrite val_middle by (rewrite bits_length; assumption).
  rewrite val_bits, bits_length by assumption. reflexivity.
Qed.
Lemma field_app_l : forall a b s n, (s + n <= 8 * length a)%nat -> field (a ++ b) s n = field a s n.
Proof.
  intros. unfold field. rewrite bits_app. rewrite skipn_app_le by (rewrite bits_length; lia).
  rewrite firstn_app_le; [reflexivity|]. rewrite skipn_length, bits_length. lia.
Qed.
Lemma field_app_r : forall a b s n, field (a ++ b) (8 * length a + s) n = field b s n.
Proof.
  intros. unfold field. rewrite bits_app. rewrite skipn_app_ge by (rewrite bits_length; lia).
  rewrite bits_length. replace (8 * length a + s - 8 * length a)%nat with s by lia. reflexivity.
Qed.
Lemma field_bound : forall bs s n, field bs s n < 2 ^ N.of_nat n.
Proof.
  intros. unfold field. eapply N.lt_le_trans; [apply val_bound|].
  apply N.pow_le_mono_r; [lia|]. rewrite firstn_length. lia.
Qed.

(* shifts and masks as division and remainder *)
Lemma land_ones' : forall a n, N.land a (N.ones n) = a mod 2 ^ n.
Proof. apply N.land_ones. Qed.
Lemma shr_mask : forall a s n m, m = N.ones n -> N.land (N.shiftr a s) m = (a / 2 ^ s) mod 2 ^ n.
Proof. intros. subst. rewrite N.land_ones, N.shiftr_div_pow2. reflexivity. Qed.
Lemma and_mask : forall a n m, m = N.ones n -> N.land a m = a mod 2 ^ n.
Proof. intros. subst. apply N.land_ones. Qed.

Lemma be16_be : forall a b, be16 a b = be [a; b].
Proof. intros. unfold be16, be. cbn [fold_left]. lia. Qed.
Lemma be32_be : forall a b c d, be32 a b c d = be [a; b; c; d].
Proof. intros. unfold be32, be. cbn [fold_left]. lia. Qed.
Lemma be16_bound : forall a b, a < 256 -> b < 256 -> be16 a b < 65536.
Proof. intros. unfold be16. lia. Qed.
