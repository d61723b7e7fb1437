From Verif Require Import Base S_Bits M_Reader M_Bytes M_Sync S_Packet S_Sync L_Base L_Bits L_Timecode L_Sync.
Open Scope nat_scope.

Definition map2 {A B C} (f : A -> B -> C) (a : list A) (b : list B) : list C :=
  map (fun p => f (fst p) (snd p)) (combine a b).
Lemma map2_app : forall A B C (f : A -> B -> C) a1 a2 b1 b2, length a1 = length b1 ->
  map2 f (a1 ++ a2) (b1 ++ b2) = map2 f a1 b1 ++ map2 f a2 b2.
Proof.
  intros A B C f a1. induction a1 as [|x a1 IH]; intros a2 [|y b1] b2 H; try discriminate; [reflexivity|].
  unfold map2. cbn [app combine map]. f_equal. apply IH. cbn in H. lia.
Qed.
Lemma map2_length : forall A B C (f : A -> B -> C) a b, length (map2 f a b) = min (length a) (length b).
Proof. intros. unfold map2. rewrite map_length, combine_length. reflexivity. Qed.
Lemma map2_false : forall w, map2 andb w (repeat false (length w)) = repeat false (length w).
Proof. unfold map2. induction w; cbn; [reflexivity|]. rewrite andb_false_r. f_equal. exact IHw. Qed.
Lemma map2_true : forall w, map2 andb w (repeat true (length w)) = w.
Proof. unfold map2. induction w; cbn; [reflexivity|]. rewrite andb_true_r. f_equal. exact IHw. Qed.

Lemma masked_eq : forall i j A W, length W = i + length A + j ->
  (map2 andb W (repeat false i ++ repeat true (length A) ++ repeat false j)
    = repeat false i ++ A ++ repeat false j <-> firstn (length A) (skipn i W) = A).
Proof.
  intros i j A W L.
  rewrite <- (firstn_skipn i W) at 1. set (W1 := firstn i W).
  rewrite <- (firstn_skipn (length A) (skipn i W)) at 1. set (W2 := firstn (length A) (skipn i W)).
  set (W3 := skipn (length A) (skipn i W)).
  assert (L1 : length W1 = i) by (unfold W1; rewrite firstn_length; lia).
  assert (L2 : length W2 = length A) by (unfold W2; rewrite firstn_length, skipn_length; lia).
  assert (L3 : length W3 = j) by (unfold W3; rewrite !skipn_length; lia).
  clearbody W1 W2 W3.
  rewrite map2_app by (rewrite repeat_length; assumption).
  rewrite map2_app by (rewrite repeat_length; assumption).
  rewrite <- L1 at 1. rewrite map2_false, L1. rewrite <- L2 at 1. rewrite map2_true.
  rewrite <- L3 at 1. rewrite map2_false, L3.
  split.
  - intro H. apply app_inv_head in H. apply app_inv_tail in H. exact H.
  - intros ->. reflexivity.
Qed.

(* ---- bit level meaning of the byte operations ---- *)
Lemma bits8_land : forall a b, bits8 (N.land a b) = map2 andb (bits8 a) (bits8 b).
Proof. intros. unfold bits8, map2. cbn [combine map fst snd]. rewrite !N.land_spec. reflexivity. Qed.
Lemma bits8_lor : forall a b, bits8 (N.lor a b) = map2 orb (bits8 a) (bits8 b).
Proof. intros. unfold bits8, map2. cbn [combine map fst snd]. rewrite !N.lor_spec. reflexivity. Qed.
Lemma bits_land : forall w m, length w = length m -> bits (map2 N.land w m) = map2 andb (bits w) (bits m).
Proof.
  induction w as [|x w IH]; intros [|y m] H; try discriminate; [reflexivity|].
  unfold map2 at 1. cbn [combine map fst snd]. fold (map2 N.land w m). rewrite !bits_cons, map2_app by reflexivity.
  rewrite bits8_land, IH by (cbn in H; lia). reflexivity.
Qed.

Lemma byte_forall : forall P : N -> bool, forallb (fun n => P (N.of_nat n)) (List.seq 0 256) = true ->
  forall x, (x < 256)%N -> P x = true.
Proof.
  intros P H x Hx. rewrite forallb_forall in H. rewrite <- (N2Nat.id x). apply H. apply in_seq. lia.
Qed.
Definition beqb (a b : list bool) : bool := if list_eq_dec Bool.bool_dec a b then true else false.
Lemma beqb_eq : forall a b, beqb a b = true -> a = b.
Proof. intros a b. unfold beqb. destruct (list_eq_dec _ a b); [auto|discriminate]. Qed.

Lemma shl_bits : forall x k, (x < 256)%N -> k < 8 -> bits8 (u8_shl x k) = skipn k (bits8 x) ++ repeat false k.
Proof.
  intros x k Hx Hk. apply beqb_eq.
  assert (H : forallb (fun k => forallb (fun n => beqb (bits8 (u8_shl (N.of_nat n) k)) (skipn k (bits8 (N.of_nat n)) ++ repeat false k)) (List.seq 0 256)) (List.seq 0 8) = true)
    by (vm_compute; reflexivity).
  rewrite forallb_forall in H. specialize (H k ltac:(apply in_seq; lia)).
  apply (byte_forall (fun x => beqb (bits8 (u8_shl x k)) (skipn k (bits8 x) ++ repeat false k)) H x Hx).
Qed.
Lemma shr_bits : forall x k, (x < 256)%N -> k < 8 ->
  bits8 (if k =? 0 then 0%N else N.shiftr x (N.of_nat (8 - k))) = repeat false (8 - k) ++ firstn k (bits8 x).
Proof.
  intros x k Hx Hk. apply beqb_eq.
  assert (H : forallb (fun k => forallb (fun n => beqb (bits8 (if k =? 0 then 0%N else N.shiftr (N.of_nat n) (N.of_nat (8 - k)))) (repeat false (8 - k) ++ firstn k (bits8 (N.of_nat n)))) (List.seq 0 256)) (List.seq 0 8) = true)
    by (vm_compute; reflexivity).
  rewrite forallb_forall in H. specialize (H k ltac:(apply in_seq; lia)).
  apply (byte_forall (fun x => beqb (bits8 (if k =? 0 then 0%N else N.shiftr x (N.of_nat (8 - k)))) (repeat false (8 - k) ++ firstn k (bits8 x))) H x Hx).
Qed.
Lemma map2_orb_ff : forall a b n m, length a = n -> length b = m ->
  map2 orb (a ++ repeat false m) (repeat false n ++ b) = a ++ b.
Proof.
  intros a b n m <- <-. rewrite map2_app by (rewrite repeat_length; reflexivity). f_equal.
  - unfold map2. induction a; cbn; [reflexivity|]. rewrite orb_false_r. f_equal. exact IHa.
  - unfold map2. induction b; cbn; [reflexivity|]. f_equal. exact IHb.
Qed.

Lemma left_shift_bits : forall l k, bytes_ok l -> k < 8 ->
  bits (left_shift_bytes l k) = skipn k (bits l ++ repeat false k).
Proof.
  induction l as [|x l IH]; intros k Hl Hk.
  - cbn [left_shift_bytes]. change (bits []) with (@nil bool). cbn [app].
    rewrite skipn_all2 by (rewrite repeat_length; lia). reflexivity.
  - inversion Hl as [|? ? Hx Hl']; subst. destruct l as [|y l].
    + cbn [left_shift_bytes]. rewrite !bits_cons. change (bits []) with (@nil bool). rewrite !app_nil_r.
      rewrite shl_bits by assumption. rewrite skipn_app_le by (rewrite bits8_length; lia). reflexivity.
    + assert (E : left_shift_bytes (x :: y :: l) k =
        N.lor (u8_shl x k) (if (k =? 0)%nat then 0%N else N.shiftr y (N.of_nat (8 - k))) :: left_shift_bytes (y :: l) k) by reflexivity.
      rewrite E. rewrite (bits_cons (N.lor _ _)), IH by assumption.
      inversion Hl' as [|? ? Hy _]; subst.
      rewrite bits8_lor, shl_bits, shr_bits by assumption.
      rewrite map2_orb_ff.
      2:{ rewrite skipn_length, bits8_length. reflexivity. }
      2:{ rewrite firstn_length, bits8_length. lia. }
      rewrite !bits_cons. rewrite <- !app_assoc. rewrite (skipn_app_le _ (bits8 x)) by (rewrite bits8_length; lia).
      f_equal. rewrite (skipn_app_le _ (bits8 y)) by (rewrite bits8_length; lia).
      rewrite app_assoc, firstn_skipn. reflexivity.
Qed.
Lemma left_shift_bytes_length : forall l k, length (left_shift_bytes l k) = length l.
Proof.
  induction l as [|x l IH]; intro k; [reflexivity|]. destruct l as [|y l]; [reflexivity|].
  change (S (length (left_shift_bytes (y :: l) k)) = S (length (y :: l))). rewrite IH. reflexivity.
Qed.
Lemma u8_shl_byte : forall x k, (u8_shl x k < 256)%N.
Proof. intros. unfold u8_shl. change 255%N with (N.ones 8). rewrite N.land_ones. apply N.mod_lt. discriminate. Qed.
Lemma lor_byte : forall a b, (a < 256 -> b < 256 -> N.lor a b < 256)%N.
Proof.
  intros a b Ha Hb. destruct (N.eq_dec (N.lor a b) 0) as [E|E]; [lia|].
  change 256%N with (2 ^ 8)%N. apply N.log2_lt_pow2; [lia|]. rewrite N.log2_lor. apply N.max_lub_lt.
  - destruct (N.eq_dec a 0); [subst; cbn; lia|]. apply N.log2_lt_pow2; [lia|exact Ha].
  - destruct (N.eq_dec b 0); [subst; cbn; lia|]. apply N.log2_lt_pow2; [lia|exact Hb].
Qed.
Lemma left_shift_bytes_ok : forall l k, bytes_ok l -> bytes_ok (left_shift_bytes l k).
Proof.
  induction l as [|x l IH]; intros k H; [constructor|]. inversion H as [|? ? Hx Hl]; subst. destruct l as [|y l].
  - constructor; [apply u8_shl_byte|constructor].
  - inversion Hl as [|? ? Hy _]; subst. constructor.
    + apply lor_byte; [apply u8_shl_byte|]. destruct (k =? 0); [lia|].
      rewrite N.shiftr_div_pow2. eapply N.le_lt_trans; [apply N.div_le_upper_bound|exact Hy].
      * apply N.pow_nonzero. lia.
      * assert (2 ^ N.of_nat (8 - k) <> 0)%N by (apply N.pow_nonzero; lia). nia.
    + apply IH. exact Hl.
Qed.

(* ---- the patterns ---- *)
Definition pat_i (asm : list N) (i : nat) : list N := nth i (fst (create_patterns asm)) [].
Definition mask_i (asm : list N) (i : nat) : list N := nth i (snd (create_patterns asm)) [].
Definition plen (asm : list N) (i : nat) : nat := length asm + (if i =? 0 then 0 else 1).

Lemma pat_0 : forall asm, pat_i asm 0 = asm. Proof. reflexivity. Qed.
Lemma pat_S : forall asm i, i < 7 -> pat_i asm (S i) = left_shift_bytes (0%N :: asm) (7 - i).
Proof. intros asm i H. do 7 (destruct i as [|i]; [reflexivity|]). lia. Qed.
Lemma mask_0 : forall asm, mask_i asm 0 = repeat 255%N (length asm). Proof. reflexivity. Qed.
Lemma mask_S : forall asm i, i < 7 -> mask_i asm (S i) = left_shift_bytes (0%N :: repeat 255%N (length asm)) (7 - i).
Proof. intros asm i H. do 7 (destruct i as [|i]; [reflexivity|]). lia. Qed.

Lemma bits_255 : forall n, bits (repeat 255%N n) = repeat true (8 * n).
Proof.
  induction n; [reflexivity|]. cbn [repeat]. rewrite bits_cons, IHn. replace (8 * S n) with (8 + 8 * n) by lia. reflexivity.
Qed.
Lemma bytes_ok_repeat255 : forall n, bytes_ok (repeat 255%N n).
Proof. induction n; cbn; constructor; auto. lia. Qed.

Lemma shifted_bits : forall l i, bytes_ok l -> 1 <= i < 8 ->
  bits (left_shift_bytes (0%N :: l) (8 - i)) = repeat false i ++ bits l ++ repeat false (8 - i).
Proof.
  intros l i Hl Hi. rewrite left_shift_bits by (first [lia | (constructor; [lia|assumption])]).
  rewrite bits_cons. change (bits8 0) with (repeat false 8). rewrite <- app_assoc.
  replace 8 with ((8 - i) + i) at 2 by lia. rewrite repeat_app, <- app_assoc.
  rewrite skipn_app_ge by (rewrite repeat_length; lia). rewrite repeat_length, Nat.sub_diag. reflexivity.
Qed.

Lemma pat_bits : forall asm i, bytes_ok asm -> i < 8 ->
  bits (pat_i asm i) = repeat false i ++ bits asm ++ repeat false (if i =? 0 then 0 else 8 - i).
Proof.
  intros asm [|i] Ha Hi.
  - rewrite pat_0. cbn. rewrite app_nil_r. reflexivity.
  - rewrite pat_S by lia. replace (7 - i) with (8 - S i) by lia. rewrite shifted_bits by (assumption || lia). reflexivity.
Qed.
Lemma mask_bits : forall asm i, i < 8 ->
  bits (mask_i asm i) = repeat false i ++ repeat true (8 * length asm) ++ repeat false (if i =? 0 then 0 else 8 - i).
Proof.
  intros asm [|i] Hi.
  - rewrite mask_0, bits_255. cbn [repeat app Nat.eqb]. rewrite app_nil_r. reflexivity.
  - rewrite mask_S by lia. replace (7 - i) with (8 - S i) by lia.
    rewrite shifted_bits by (try apply bytes_ok_repeat255; lia). rewrite bits_255. reflexivity.
Qed.
Lemma pat_length : forall asm i, i < 8 -> length (pat_i asm i) = plen asm i.
Proof.
  intros asm [|i] Hi; unfold plen; [rewrite pat_0; cbn; lia|]. rewrite pat_S, left_shift_bytes_length by lia. cbn. lia.
Qed.
Lemma mask_length : forall asm i, i < 8 -> length (mask_i asm i) = plen asm i.
Proof.
  intros asm [|i] Hi; unfold plen; [rewrite mask_0, repeat_length; cbn; lia|].
  rewrite mask_S, left_shift_bytes_length by lia. cbn. rewrite repeat_length. lia.
Qed.
Lemma pat_ok : forall asm i, bytes_ok asm -> i < 8 -> bytes_ok (pat_i asm i).
Proof.
  intros asm [|i] Ha Hi; [rewrite pat_0; assumption|]. rewrite pat_S by lia. apply left_shift_bytes_ok.
  constructor; [lia|assumption].
Qed.

Lemma cmp_map2 : forall pat mask rem, length mask = length pat -> length pat <= length rem ->
  (cmp pat mask rem = CMatch <-> map2 N.land (firstn (length pat) rem) mask = pat).
Proof.
  unfold map2. induction pat as [|p pat IH]; intros [|m mask] rem L H; try discriminate; [cbn; tauto|].
  destruct rem as [|x rem]; [cbn in H; lia|]. cbn [cmp length firstn combine map fst snd].
  cbn in L, H. specialize (IH mask rem ltac:(lia) ltac:(lia)).
  destruct (N.eqb_spec (N.land x m) p).
  - destruct (cmp pat mask rem) eqn:E.
    + split; [intros _; f_equal; [assumption|apply IH; reflexivity]|reflexivity].
    + split; [discriminate|]. intro Q. injection Q as _ Q. apply IH in Q. discriminate.
    + split; [discriminate|]. intro Q. injection Q as _ Q. apply IH in Q. discriminate.
  - split; [discriminate|]. congruence.
Qed.

Lemma map2_land_ok : forall w m, bytes_ok w -> bytes_ok (map2 N.land w m).
Proof.
  unfold map2. induction w as [|x w IH]; intros m H; [constructor|]. destruct m as [|y m]; [constructor|].
  inversion H; subst. cbn [combine map fst snd]. constructor; [|apply IH; assumption].
  destruct (N.eq_dec (N.land x y) 0) as [->|E]; [lia|].
  change 256%N with (2 ^ 8)%N. apply N.log2_lt_pow2; [lia|].
  eapply N.le_lt_trans; [apply N.log2_land|]. eapply N.le_lt_trans; [apply N.le_min_l|].
  destruct (N.eq_dec x 0); [subst; rewrite N.land_0_l in E; congruence|]. apply N.log2_lt_pow2; [lia|assumption].
Qed.

(* pattern i matches the bytes rem exactly when the marker occurs at bit i of rem *)
Lemma pattern_match : forall asm i rem, bytes_ok asm -> asm <> [] -> bytes_ok rem -> i < 8 ->
  (cmp (pat_i asm i) (mask_i asm i) rem = CMatch <-> firstn (8 * length asm) (skipn i (bits rem)) = bits asm).
Proof.
  intros asm i rem Ha Hne Hr Hi.
  assert (Hn : 1 <= length asm) by (destruct asm; [congruence|cbn; lia]).
  destruct (Nat.le_gt_cases (plen asm i) (length rem)) as [L|L].
  - rewrite cmp_map2 by (rewrite ?mask_length, ?pat_length by assumption; auto).
    rewrite pat_length by assumption. set (w := firstn (plen asm i) rem).
    assert (Lw : length w = plen asm i) by (unfold w; rewrite firstn_length; lia).
    assert (Hw : bytes_ok w) by (apply bytes_ok_firstn; assumption).
    assert (EQ : map2 N.land w (mask_i asm i) = pat_i asm i <->
                 bits (map2 N.land w (mask_i asm i)) = bits (pat_i asm i)).
    { split; [congruence|]. apply bits_inj; [apply map2_land_ok; assumption|apply pat_ok; assumption]. }
    rewrite EQ, bits_land by (rewrite mask_length by assumption; assumption).
    rewrite pat_bits, mask_bits by assumption.
    rewrite <- bits_length. rewrite masked_eq.
    2:{ rewrite !bits_length, Lw. unfold plen. destruct i; cbn [Nat.eqb]; lia. }
    unfold w. rewrite bits_firstn. rewrite bits_length.
    rewrite skipn_firstn_comm, firstn_firstn.
    replace (min (8 * length asm) (8 * plen asm i - i)) with (8 * length asm); [reflexivity|].
    unfold plen. destruct i; cbn [Nat.eqb]; lia.
  - split.
    + intro C. apply cmp_match_len in C; [|rewrite mask_length, pat_length by assumption; reflexivity].
      rewrite pat_length in C by assumption. lia.
    + intro C. apply (f_equal (@length bool)) in C. rewrite firstn_length, skipn_length, !bits_length in C.
      unfold plen in L. destruct i; cbn [Nat.eqb] in L; lia.
Qed.

Lemma occurs_rem : forall asm bs off i, occurs asm (bits bs) (8 * off + i) <->
  firstn (8 * length asm) (skipn i (bits (skipn off bs))) = bits asm.
Proof.
  intros. unfold occurs. rewrite bits_skipn, skipn_skipn. rewrite (Nat.add_comm i). reflexivity.
Qed.
