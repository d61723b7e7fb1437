From Verif Require Import Base L_Base M_Frame M_ReedSolomon S_ReedSolomon.
Open Scope nat_scope.

Lemma get_map_seq : forall A (g : nat -> A) n i, i < n -> get (map g (seq 0 n)) i = Val (g i).
Proof.
  intros A g n i H. rewrite (get_nth _ _ i (g 0)) by (rewrite map_length, seq_length; exact H).
  rewrite map_nth, seq_nth by exact H. reflexivity.
Qed.
Lemma nth_map_seq : forall A (g : nat -> A) n i d, i < n -> nth i (map g (seq 0 n)) d = g i.
Proof.
  intros A g n i d H. rewrite (nth_indep _ d (g 0)) by (rewrite map_length, seq_length; exact H).
  rewrite map_nth, seq_nth by exact H. reflexivity.
Qed.
Lemma upd_map_seq : forall A (g : nat -> A) n i x, i < n ->
  upd (map g (seq 0 n)) i x = Val (map (fun k => if k =? i then x else g k) (seq 0 n)).
Proof.
  intros A g n i x H. unfold upd. rewrite map_length, seq_length.
  replace (i <? n) with true by (symmetry; apply Nat.ltb_lt; exact H). f_equal.
  replace n with (i + S (n - S i)) by lia. rewrite seq_app, !map_app. cbn [Nat.add seq map].
  rewrite firstn_app, map_length, seq_length, Nat.sub_diag, firstn_O, app_nil_r, firstn_all2 by (rewrite map_length, seq_length; lia).
  rewrite skipn_app, map_length, seq_length. replace (S i - i) with 1 by lia.
  rewrite (skipn_all2 (map g (seq 0 i))) by (rewrite map_length, seq_length; lia). cbn [skipn app]. rewrite Nat.eqb_refl. f_equal; [|f_equal].
  - apply map_ext_in. intros k I. apply in_seq in I. destruct (Nat.eqb_spec k i); [lia|reflexivity].
  - apply map_ext_in. intros k I. apply in_seq in I. destruct (Nat.eqb_spec k i); [lia|reflexivity].
Qed.
Lemma upd_panic : forall A (v : list A) i x, length v <= i -> upd v i x = Panic.
Proof. intros. unfold upd. replace (i <? length v) with false by (symmetry; apply Nat.ltb_ge; assumption). reflexivity. Qed.

Lemma repeat_map_seq : forall A (x : A) n, repeat x n = map (fun _ => x) (seq 0 n).
Proof.
  intros A x n. generalize 0. induction n as [|n IH]; intro s; [reflexivity|]. cbn [repeat seq map]. f_equal. apply IH.
Qed.

(* the matrix after j bytes *)
Definition gmat (il : nat) (data : list N) (j : nat) : list (list N) :=
  map (fun r => map (fun c => if r + c * il <? j then nth (r + c * il) data 0%N else 0%N) (seq 0 255)) (seq 0 il).

Lemma deint_loop_gmat : forall il data, il <> 0 -> length data <= 255 * il ->
  forall rest j, rest = skipn j data -> j + length rest = length data ->
  deint_loop il rest j (gmat il data j) = Val (gmat il data (length data)).
Proof.
  intros il data HI HL. induction rest as [|x rest IH]; intros j HS HJ; cbn [deint_loop].
  - cbn [length] in HJ. do 2 f_equal. lia.
  - cbn [length] in HJ. assert (HM : j mod il < il) by (apply Nat.mod_upper_bound; exact HI).
    assert (HD : j / il < 255) by (apply Nat.div_lt_upper_bound; lia).
    assert (DM := Nat.div_mod j il HI).
    assert (HX : x = nth j data 0%N).
    { rewrite <- (firstn_skipn j data), <- HS, app_nth2; rewrite firstn_length; [|lia]. replace (j - Nat.min j (length data)) with 0 by lia. reflexivity. }
    assert (HR : rest = skipn (S j) data).
    { change (S j) with (1 + j). rewrite <- skipn_skipn, <- HS. reflexivity. }
    unfold gmat at 1. rewrite get_map_seq by exact HM. cbn [obind]. rewrite upd_map_seq by exact HD. cbn [obind].
    unfold gmat at 1. rewrite upd_map_seq by exact HM. cbn [obind].
    rewrite <- (IH (S j) HR ltac:(lia)). f_equal. unfold gmat. apply map_ext_in. intros r Ir. apply in_seq in Ir.
    destruct (Nat.eqb_spec r (j mod il)) as [->|NE].
    + apply map_ext_in. intros c Ic. destruct (Nat.eqb_spec c (j / il)) as [->|NC].
      * replace (j mod il + j / il * il) with j by lia. replace (j <? S j) with true by (symmetry; apply Nat.ltb_lt; lia). exact HX.
      * assert (j mod il + c * il <> j) by (intro E; apply NC; nia).
        replace (j mod il + c * il <? S j) with (j mod il + c * il <? j); [reflexivity|].
        destruct (Nat.ltb_spec (j mod il + c * il) j), (Nat.ltb_spec (j mod il + c * il) (S j)); try reflexivity; lia.
    + apply map_ext_in. intros c Ic. assert (r + c * il <> j).
      { intro E. apply NE. rewrite <- E, Nat.mod_add, Nat.mod_small by lia. reflexivity. }
      replace (r + c * il <? S j) with (r + c * il <? j); [reflexivity|].
      destruct (Nat.ltb_spec (r + c * il) j), (Nat.ltb_spec (r + c * il) (S j)); try reflexivity; lia.
Qed.
Lemma deinterleave_spec : forall il data, il <> 0 -> length data = 255 * il -> deinterleave data il = Val (codewords il data).
Proof.
  intros il data HI HL. unfold deinterleave. destruct (Nat.eqb_spec il 0); [contradiction|].
  replace (length data mod il =? 0) with true by (symmetry; apply Nat.eqb_eq; rewrite HL; apply Nat.mod_mul; exact HI). cbn [negb].
  replace (repeat (repeat 0%N 255) il) with (gmat il data 0).
  - rewrite (deint_loop_gmat il data HI ltac:(lia) data 0 eq_refl eq_refl). f_equal. unfold gmat, codewords, codeword.
    apply map_ext_in. intros r Ir. apply in_seq in Ir. apply map_ext_in. intros c Ic. apply in_seq in Ic.
    replace (r + c * il <? length data) with true; [reflexivity|]. symmetry. apply Nat.ltb_lt. rewrite HL. nia.
  - rewrite (repeat_map_seq _ (repeat 0%N 255) il). apply map_ext. intro r. rewrite (repeat_map_seq _ 0%N 255). apply map_ext. reflexivity.
Qed.
Lemma codeword_length : forall il b k, length (codeword il b k) = 255.
Proof. intros. unfold codeword. rewrite map_length, seq_length. reflexivity. Qed.
Lemma codewords_length : forall il b, length (codewords il b) = il.
Proof. intros. unfold codewords. rewrite map_length, seq_length. reflexivity. Qed.

(* writing one message *)
Lemma write_message_spec : forall il idx, idx < il -> forall msg j g, j + length msg <= 255 ->
  write_message il idx j msg (map g (seq 0 (255 * il))) =
  Val (map (fun i => if (i mod il =? idx) && (j <=? i / il) && (i / il <? j + length msg) then nth (i / il - j) msg 0%N else g i) (seq 0 (255 * il))).
Proof.
  intros il idx HI. induction msg as [|x msg IH]; intros j g HL; cbn [write_message length] in *.
  - f_equal. apply map_ext. intro i. replace ((i mod il =? idx) && (j <=? i / il) && (i / il <? j + 0)) with false; [reflexivity|].
    symmetry. destruct (Nat.leb_spec j (i / il)); [|rewrite andb_false_r; reflexivity].
    replace (i / il <? j + 0) with false by (symmetry; apply Nat.ltb_ge; lia). apply andb_false_r.
  - rewrite upd_map_seq by nia. cbn [obind]. rewrite IH by lia. f_equal. apply map_ext_in. intros i Ii. apply in_seq in Ii.
    assert (HZ : il <> 0) by lia. assert (DM := Nat.div_mod i il HZ). assert (MB := Nat.mod_upper_bound i il HZ).
    destruct (Nat.eqb_spec (i mod il) idx) as [EM|EM]; cbn [andb].
    + destruct (Nat.leb_spec (S j) (i / il)), (Nat.leb_spec j (i / il)); try lia; cbn [andb].
      * replace (i / il <? j + S (length msg)) with (i / il <? S j + length msg) by (f_equal; lia).
        destruct (i / il <? S j + length msg) eqn:E.
        -- replace (i / il - j) with (S (i / il - S j)) by lia. reflexivity.
        -- destruct (Nat.eqb_spec i (idx + j * il)) as [EI|EI]; [|reflexivity].
           exfalso. rewrite EI, Nat.div_add, Nat.div_small in H by lia. lia.
      * assert (EJ : i / il = j) by lia. replace (i / il <? j + S (length msg)) with true by (symmetry; apply Nat.ltb_lt; lia).
        replace (i =? idx + j * il) with true by (symmetry; apply Nat.eqb_eq; nia).
        replace (i / il - j) with 0 by lia. reflexivity.
      * replace (i =? idx + j * il) with false; [reflexivity|]. symmetry. apply Nat.eqb_neq. intro E.
        rewrite E, Nat.div_add, Nat.div_small in H0 by lia. lia.
    + replace (i =? idx + j * il) with false; [reflexivity|]. symmetry. apply Nat.eqb_neq. intro E. apply EM.
      rewrite E, Nat.mod_add, Nat.mod_small by lia. reflexivity.
Qed.

(* codewords written so far *)
Definition gout (il : nat) (ms : list (list N)) : list N :=
  map (fun i => nth (i / il) (nth (i mod il) ms []) 0%N) (seq 0 (255 * il)).
Lemma gout_snoc : forall il ms m, length ms < il -> length m <= 255 ->
  write_message il (length ms) 0 m (gout il ms) = Val (gout il (ms ++ [m])).
Proof.
  intros il ms m H HL. unfold gout. rewrite write_message_spec by (assumption || lia). f_equal. apply map_ext. intro i.
  cbn [Nat.leb]. rewrite andb_true_r, Nat.sub_0_r. cbn [Nat.add].
  destruct (Nat.eqb_spec (i mod il) (length ms)) as [E|E]; cbn [andb].
  - rewrite E, (app_nth2 ms [m]), Nat.sub_diag by lia. cbn [nth].
    destruct (Nat.ltb_spec (i / il) (length m)) as [L|L]; [reflexivity|]. rewrite (nth_overflow m) by exact L. rewrite (nth_overflow ms) by lia.
    destruct (i / il); reflexivity.
  - destruct (Nat.lt_ge_cases (i mod il) (length ms)) as [L|L].
    + rewrite app_nth1 by exact L. reflexivity.
    + rewrite (nth_overflow ms), (nth_overflow (ms ++ [m])) by (try rewrite app_length; cbn; lia). reflexivity.
Qed.
Lemma gout_nil : forall il, gout il [] = repeat 0%N (255 * il).
Proof.
  intro il. unfold gout. rewrite repeat_map_seq. apply map_ext. intro i. destruct (i mod il); cbn [nth]; destruct (i / il); reflexivity.
Qed.
Lemma gout_length : forall il ms, length (gout il ms) = 255 * il.
Proof. intros. unfold gout. rewrite map_length, seq_length. reflexivity. Qed.

Definition sum (l : list nat) : nat := fold_right Nat.add 0 l.

(* the loop, with a good codec *)
Section Perform.
Variable k : codec.
Variable c : rs_cfg.
Definition answers (w : list N) : Prop := exists m, snd (correct_message k w) = Some m /\ 223 <= length m <= 255.

Definition stops (w : list N) : Prop := (rs_correct c = false /\ has_errors k w = true) \/ is_uncorrectable k w.

Lemma unc_dec : forall w, {is_uncorrectable k w} + {~ is_uncorrectable k w}.
Proof. intro w. unfold is_uncorrectable. destruct (fst (correct_message k w)); [right; discriminate|left; reflexivity|right; discriminate]. Qed.

Lemma loop_passes : forall cadu words rest ms num, Forall answers words -> Forall (fun w => ~ stops w) words ->
  length ms + length words <= rs_interleave c ->
  perform_loop k c cadu (length ms) (words ++ rest) (gout (rs_interleave c) ms) num =
  perform_loop k c cadu (length ms + length words) rest (gout (rs_interleave c) (ms ++ map (message_of k) words)) (num + sum (map (num_corrections k) words)).
Proof.
  intros cadu. induction words as [|w words IH]; intros rest ms num HL HS HI.
  - cbn. rewrite app_nil_r, !Nat.add_0_r. reflexivity.
  - inversion HL as [|? ? L1 L2]; subst. inversion HS as [|? ? S1 S2]; subst. cbn [length] in HI.
    cbn [app perform_loop].
    assert (NU : fst (correct_message k w) <> RsUncorrectable) by (intro X; apply S1; right; exact X).
    assert (NE : negb (rs_correct c) && has_errors k w = false).
    { destruct (rs_correct c) eqn:E1; [reflexivity|]. cbn. destruct (has_errors k w) eqn:E2; [|reflexivity]. destruct S1. left. auto. }
    rewrite NE. destruct L1 as (m & EM & LM1 & LM2).
    assert (MO : message_of k w = m) by (unfold message_of; rewrite EM; reflexivity).
    assert (NC : num_corrections k w = match fst (correct_message k w) with RsCorrected n => n | _ => 0 end) by reflexivity.
    cbn [map sum fold_right]. rewrite MO, NC. destruct (correct_message k w) as [s om]. cbn [fst snd] in *. subst om.
    assert (GO : forall n, (let* corrected := write_message (rs_interleave c) (length ms) 0 m (gout (rs_interleave c) ms) in
        perform_loop k c cadu (S (length ms)) (words ++ rest) corrected n) =
        perform_loop k c cadu (length ms + length (w :: words)) rest (gout (rs_interleave c) (ms ++ m :: map (message_of k) words)) (n + sum (map (num_corrections k) words))).
    { intro n. rewrite gout_snoc by lia. cbn [obind]. assert (E := IH rest (ms ++ [m]) n L2 S2).
      rewrite app_length in E. cbn [length] in E. rewrite Nat.add_1_r in E. rewrite E by lia.
      rewrite <- app_assoc. cbn [app length]. f_equal. lia. }
    destruct s; [| congruence |]; rewrite GO; f_equal; unfold sum; lia.
Qed.

Lemma filled_length : forall block, right_length c block -> length (filled c block) = 255 * rs_interleave c.
Proof. intros block H. unfold filled, right_length in *. rewrite app_length, repeat_length. lia. Qed.

Lemma perform_start : forall block, right_length c block -> rs_interleave c <> 0 ->
  perform k c block =
  (let* r := perform_loop k c (filled c block) 0 (codewords (rs_interleave c) (filled c block)) (gout (rs_interleave c) []) 0 in
   match r with
   | inl res => Val (Ok res)
   | inr (corrected, num) =>
      let* zult := (if rs_remove_parity c then remove_parity c corrected else Val corrected) in
      let* zult := slice_from zult (rs_virtual_fill c) in
      Val (Ok (if num =? 0 then IOk else ICorrected, zult))
   end).
Proof.
  intros block HR HI. assert (HF := filled_length block HR). unfold perform, can_correct. unfold right_length in HR.
  change RS_N with 255. rewrite HR, Nat.eqb_refl. cbn [negb]. fold (filled c block).
  rewrite deinterleave_spec by assumption. cbn [obind]. rewrite gout_nil. reflexivity.
Qed.

Lemma words_255 : forall il b, Forall (fun w => length w = 255) (codewords il b).
Proof. intros il b. apply Forall_forall. intros w I. unfold codewords in I. apply in_map_iff in I. destruct I as (x & <- & _). apply codeword_length. Qed.

Lemma parity_ok : forall d, rs_parity_len c = 32 -> length d = 255 * rs_interleave c ->
  remove_parity c d = Val (firstn (223 * rs_interleave c) d).
Proof.
  intros d HP HL. unfold remove_parity. rewrite usub_ok by (rewrite HP; lia). cbn [obind]. rewrite slice0 by lia. do 2 f_equal. lia.
Qed.

Lemma perform_all : forall block, right_length c block -> rs_interleave c <> 0 -> rs_parity_len c = 32 ->
  Forall answers (codewords (rs_interleave c) (filled c block)) ->
  Forall (fun w => ~ stops w) (codewords (rs_interleave c) (filled c block)) ->
  let words := codewords (rs_interleave c) (filled c block) in
  let out := interleaved (rs_interleave c) (map (message_of k) words) in
  let keep := if rs_remove_parity c then firstn (223 * rs_interleave c) out else out in
  perform k c block =
    if rs_virtual_fill c <=? length keep
    then Val (Ok (if sum (map (num_corrections k) words) =? 0 then IOk else ICorrected, skipn (rs_virtual_fill c) keep))
    else Panic.
Proof.
  intros block HR HI HP HA HS words out keep. rewrite perform_start by assumption.
  assert (E := loop_passes (filled c block) words [] [] 0 HA HS ltac:(unfold words; rewrite codewords_length; cbn; lia)).
  rewrite app_nil_r in E. cbn [length app Nat.add] in E. fold words. rewrite E. cbn [perform_loop obind].
  change (gout (rs_interleave c) (map (message_of k) words)) with out.
  assert (LO : length out = 255 * rs_interleave c) by apply gout_length.
  assert (K : (if rs_remove_parity c then remove_parity c out else Val out) = Val keep).
  { unfold keep. destruct (rs_remove_parity c); [apply parity_ok; assumption|reflexivity]. }
  rewrite K. cbn [obind]. destruct (Nat.leb_spec (rs_virtual_fill c) (length keep)) as [L|L].
  - rewrite slice_from_ok by exact L. reflexivity.
  - rewrite slice_from_panic by exact L. reflexivity.
Qed.

(* stopped at a codeword *)
Lemma perform_stops : forall block pre w post, right_length c block -> rs_interleave c <> 0 -> rs_parity_len c = 32 ->
  codewords (rs_interleave c) (filled c block) = pre ++ w :: post -> Forall answers pre -> Forall (fun w => ~ stops w) pre -> stops w ->
  perform k c block = Val (Ok (if negb (rs_correct c) && has_errors k w then (INotCorrected, filled c block)
                              else (IUncorrectable, firstn (223 * rs_interleave c) (filled c block)))).
Proof.
  intros block pre w post HR HI HP HW WL HS HX. rewrite perform_start by assumption. rewrite HW.
  assert (LL : length pre < rs_interleave c).
  { assert (E := codewords_length (rs_interleave c) (filled c block)). rewrite HW, app_length in E. cbn in E. lia. }
  assert (E := loop_passes (filled c block) pre (w :: post) [] 0 WL HS ltac:(cbn; lia)). cbn [length app Nat.add] in E. rewrite E.
  cbn [perform_loop]. destruct (negb (rs_correct c) && has_errors k w) eqn:B; [reflexivity|].
  assert (U : fst (correct_message k w) = RsUncorrectable).
  { destruct HX as [[X1 X2]|X]; [rewrite X1, X2 in B; discriminate|exact X]. }
  destruct (correct_message k w) as [s om]. cbn [fst] in U. subst s.
  rewrite parity_ok by (assumption || apply filled_length; assumption). reflexivity.
Qed.
Lemma ok_answers : codec_ok k -> forall ws, Forall (fun w => length w = 255) ws -> Forall (fun w => ~ stops w) ws -> Forall answers ws.
Proof.
  intros HK ws A B. rewrite Forall_forall in *. intros w I. apply HK; [apply A; exact I|]. intro X. apply (B w I). right. exact X.
Qed.
Lemma stops_dec : forall w, {stops w} + {~ stops w}.
Proof.
  intro w. unfold stops. destruct (unc_dec w) as [U|U]; [left; auto|]. destruct (rs_correct c) eqn:E1.
  - right. intros [[X _]|X]; [discriminate|contradiction].
  - destruct (has_errors k w) eqn:E2; [left; auto|right]. intros [[_ X]|X]; [discriminate|contradiction].
Qed.
Lemma first_stop : forall ws, Forall (fun w => ~ stops w) ws \/
  exists pre w post, ws = pre ++ w :: post /\ Forall (fun w => ~ stops w) pre /\ stops w.
Proof.
  induction ws as [|w ws [IH|(p & x & q & -> & A & B)]]; [left; constructor| |].
  - destruct (stops_dec w) as [S1|S1]; [right; exists [], w, ws; repeat split; auto; constructor|left; constructor; assumption].
  - destruct (stops_dec w) as [S1|S1]; [right; exists [], w, (p ++ x :: q); repeat split; auto; constructor|].
    right. exists (w :: p), x, q. repeat split; auto.
Qed.
End Perform.

Lemma perform_wrong : forall k c block, ~ right_length c block -> perform k c block = Val (Err IntegrityAlgorithm).
Proof.
  intros k c block H. unfold perform, can_correct. change RS_N with 255. unfold right_length in H.
  destruct (Nat.eqb_spec (length block + rs_virtual_fill c) (255 * rs_interleave c)); [contradiction|reflexivity].
Qed.

(* interleaving and its inverse *)
Lemma interleaved_codewords : forall il d, il <> 0 -> length d = 255 * il -> interleaved il (codewords il d) = d.
Proof.
  intros il d HI HL. unfold interleaved. apply nth_ext with (d := 0%N) (d' := 0%N); [rewrite map_length, seq_length; congruence|].
  rewrite map_length, seq_length. intros i Hi. rewrite nth_map_seq by exact Hi.
  assert (DM := Nat.div_mod i il HI). assert (MB := Nat.mod_upper_bound i il HI).
  assert (DB : i / il < 255) by (apply Nat.div_lt_upper_bound; lia).
  unfold codewords. rewrite nth_map_seq by exact MB. unfold codeword. rewrite nth_map_seq by exact DB. f_equal. lia.
Qed.
Lemma interleaved_length : forall il ws, length (interleaved il ws) = 255 * il.
Proof. intros. unfold interleaved. rewrite map_length, seq_length. reflexivity. Qed.
Lemma interleaved_nth : forall il ws i, i < 255 * il -> nth i (interleaved il ws) 0%N = nth (i / il) (nth (i mod il) ws []) 0%N.
Proof. intros il ws i H. unfold interleaved. rewrite nth_map_seq by exact H. reflexivity. Qed.
