From Verif Require Import Base S_Bits S_Pn M_Pn L_Base L_Bits.
Open Scope nat_scope.

Lemma lfsr_add : forall a b, lfsr_state (a + b) = Nat.iter a lfsr_step (lfsr_state b).
Proof. intros. unfold lfsr_state. induction a; [reflexivity|].
  change (lfsr_step (Nat.iter (a + b) lfsr_step (repeat true 8)) = lfsr_step (Nat.iter a lfsr_step (Nat.iter b lfsr_step (repeat true 8)))).
  rewrite IHa. reflexivity. Qed.
Lemma lfsr_period : lfsr_state 255 = lfsr_state 0. Proof. vm_compute. reflexivity. Qed.
Lemma pn_period : forall n, pn (n + 255) = pn n.
Proof. intro. unfold pn. rewrite lfsr_add, lfsr_period. reflexivity. Qed.
Lemma pn_periods : forall k n, pn (n + 255 * k) = pn n.
Proof.
  induction k; intro n; [f_equal; lia|]. replace (n + 255 * S k) with ((n + 255 * k) + 255) by lia.
  rewrite pn_period. apply IHk.
Qed.

Lemma pn_table_check :
  forallb (fun i => forallb (fun j => Bool.eqb (nth j (bits8 (nth i SEQUENCE 0%N)) false) (pn (8 * i + j))) (List.seq 0 8))
          (List.seq 0 255) = true.
Proof. vm_compute. reflexivity. Qed.

Lemma pn_index_in_range : forall idx, idx mod length SEQUENCE < 255.
Proof. intro. change (length SEQUENCE) with 255. apply Nat.mod_upper_bound. lia. Qed.

Lemma seq_bit : forall i j, j < 8 ->
  nth j (bits8 (nth (i mod length SEQUENCE) SEQUENCE 0%N)) false = pn (8 * i + j).
Proof.
  intros i j Hj. assert (R := pn_index_in_range i). change (length SEQUENCE) with 255 in *.
  assert (C := pn_table_check). rewrite forallb_forall in C.
  specialize (C (i mod 255) ltac:(apply in_seq; lia)). rewrite forallb_forall in C.
  specialize (C j ltac:(apply in_seq; lia)). apply Bool.eqb_prop in C. rewrite C.
  rewrite (Nat.div_mod i 255) at 2 by lia.
  replace (8 * (255 * (i / 255) + i mod 255) + j) with ((8 * (i mod 255) + j) + 255 * (8 * (i / 255))) by lia.
  rewrite pn_periods. reflexivity.
Qed.

Lemma derand_length : forall buf i, length (derand_from i buf) = length buf.
Proof. induction buf; intro i; cbn; auto. Qed.

Lemma bits8_lxor : forall a b j, nth j (bits8 (N.lxor a b)) false = xorb (nth j (bits8 a) false) (nth j (bits8 b) false).
Proof.
  intros a b j. unfold bits8. rewrite !N.lxor_spec. do 8 (destruct j as [|j]; [reflexivity|]). destruct j; reflexivity.
Qed.

Lemma derand_bits : forall buf i n, n < 8 * length buf ->
  nth n (bits (derand_from i buf)) false = xorb (nth n (bits buf) false) (pn (8 * i + n)).
Proof.
  induction buf as [|b buf IH]; intros i n H; [cbn in H; lia|].
  cbn [derand_from]. rewrite !bits_cons. destruct (Nat.lt_ge_cases n 8).
  - rewrite !app_nth1 by (rewrite bits8_length; assumption). rewrite bits8_lxor, seq_bit by assumption. reflexivity.
  - rewrite !app_nth2 by (rewrite bits8_length; assumption). rewrite !bits8_length.
    cbn [length] in H. rewrite IH by lia. f_equal. f_equal. lia.
Qed.

Lemma derand_involution : forall buf i, derand_from i (derand_from i buf) = buf.
Proof.
  induction buf as [|b buf IH]; intro i; cbn [derand_from]; [reflexivity|].
  rewrite IH, N.lxor_assoc, N.lxor_nilpotent, N.lxor_0_r. reflexivity.
Qed.
Lemma derand_nth : forall buf i k, k < length buf ->
  nth k (derand_from i buf) 0%N = N.lxor (nth k buf 0%N) (nth ((i + k) mod length SEQUENCE) SEQUENCE 0%N).
Proof.
  induction buf as [|b buf IH]; intros i k H; [cbn in H; lia|]. destruct k.
  - cbn [derand_from nth]. rewrite Nat.add_0_r. reflexivity.
  - cbn [derand_from nth]. rewrite IH by (cbn in H; lia). f_equal. f_equal. f_equal. lia.
Qed.
Lemma lxor_byte : forall a b, (a < 256 -> b < 256 -> N.lxor a b < 256)%N.
Proof.
  intros a b Ha Hb. destruct (N.eq_dec (N.lxor a b) 0) as [E|E]; [lia|].
  change 256%N with (2 ^ 8)%N. apply N.log2_lt_pow2; [lia|].
  eapply N.le_lt_trans; [apply N.log2_lxor|]. apply N.max_lub_lt.
  - destruct (N.eq_dec a 0); [subst; cbn; lia|]. apply N.log2_lt_pow2; [lia|exact Ha].
  - destruct (N.eq_dec b 0); [subst; cbn; lia|]. apply N.log2_lt_pow2; [lia|exact Hb].
Qed.
Lemma sequence_bytes : bytes_ok SEQUENCE.
Proof. unfold bytes_ok. rewrite Forall_forall. intros x H. unfold SEQUENCE in H.
  assert (C : forallb (fun b => (b <? 256)%N) SEQUENCE = true) by (vm_compute; reflexivity).
  rewrite forallb_forall in C. apply N.ltb_lt. apply C. exact H.
Qed.
Lemma derand_bytes_ok : forall buf i, bytes_ok buf -> bytes_ok (derand_from i buf).
Proof.
  induction buf as [|b buf IH]; intros i H; cbn [derand_from]; [constructor|].
  inversion H; subst. constructor; [|apply IH; assumption].
  apply lxor_byte; [assumption|]. apply bytes_ok_nth. exact sequence_bytes.
Qed.
