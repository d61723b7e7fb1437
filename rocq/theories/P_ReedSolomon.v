(* Properties C41 - C44, C47: Reed-Solomon *)
From Verif Require Import Base L_Base M_Frame M_ReedSolomon S_ReedSolomon L_ReedSolomon L_Frame S_Bits L_Bits S_Packet L_Packet.
Open Scope nat_scope.

(* ---- C41 ---- *)
Theorem C41_codewords : forall il block, 1 <= il -> length block = 255 * il ->
  deinterleave block il = Val (map (fun k => map (fun j => nth (k + j * il) block 0%N) (seq 0 255)) (seq 0 il)).
Proof. intros. apply deinterleave_spec; [lia|assumption]. Qed.
Print Assumptions C41_codewords.
(* the result depends on the block only through these codewords' treatment by the codec *)
Theorem C41_codec_sees_codewords : forall k1 k2 c block, 1 <= rs_interleave c -> right_length c block ->
  (forall i, i < rs_interleave c ->
     has_errors k1 (codeword (rs_interleave c) (filled c block) i) = has_errors k2 (codeword (rs_interleave c) (filled c block) i) /\
     correct_message k1 (codeword (rs_interleave c) (filled c block) i) = correct_message k2 (codeword (rs_interleave c) (filled c block) i)) ->
  perform k1 c block = perform k2 c block.
Proof.
  intros k1 k2 c block HI HR HE. rewrite !perform_start by (assumption || lia). f_equal.
  assert (HW : Forall (fun w => has_errors k1 w = has_errors k2 w /\ correct_message k1 w = correct_message k2 w) (codewords (rs_interleave c) (filled c block))).
  { apply Forall_forall. intros w I. unfold codewords in I. apply in_map_iff in I. destruct I as (i & <- & Ii). apply in_seq in Ii. apply HE. lia. }
  revert HW. generalize 0 at 1 3. generalize 0. generalize (gout (rs_interleave c) []).
  induction (codewords (rs_interleave c) (filled c block)) as [|w ws IH]; intros o n i HW; [reflexivity|].
  inversion HW as [|? ? [E1 E2] HW']; subst. cbn [perform_loop]. rewrite E1, E2.
  destruct (negb (rs_correct c) && has_errors k2 w); [reflexivity|]. destruct (correct_message k2 w) as [[] [m|]]; try reflexivity.
  - destruct (write_message _ _ _ _ _); [|reflexivity]. cbn [obind]. apply IH. exact HW'.
  - destruct (write_message _ _ _ _ _); [|reflexivity]. cbn [obind]. apply IH. exact HW'.
Qed.
Print Assumptions C41_codec_sees_codewords.
Theorem C41_interleave_inverse : forall il block, 1 <= il -> length block = 255 * il ->
  interleaved il (codewords il block) = block.
Proof. intros. apply interleaved_codewords; [lia|assumption]. Qed.
Print Assumptions C41_interleave_inverse.
(* a codec that has nothing to object *)
Theorem C41_transparent : forall k c block, 1 <= rs_interleave c -> right_length c block ->
  rs_parity_len c = 32 -> rs_remove_parity c = true -> rs_virtual_fill c <= 223 * rs_interleave c ->
  (forall i, i < rs_interleave c ->
     (rs_correct c = false -> has_errors k (codeword (rs_interleave c) (filled c block) i) = false) /\
     correct_message k (codeword (rs_interleave c) (filled c block) i) =
       (RsOk, Some (codeword (rs_interleave c) (filled c block) i))) ->
  perform k c block = Val (Ok (IOk, firstn (length block - 32 * rs_interleave c) block)).
Proof.
  intros k c block HI HR HP HRP HV HE. set (ws := codewords (rs_interleave c) (filled c block)).
  assert (HW : forall w, In w ws -> (rs_correct c = false -> has_errors k w = false) /\ correct_message k w = (RsOk, Some w)).
  { intros w I. unfold ws, codewords in I. apply in_map_iff in I. destruct I as (i & <- & Ii). apply in_seq in Ii. apply HE. lia. }
  assert (HL := words_255 (rs_interleave c) (filled c block)). fold ws in HL. rewrite Forall_forall in HL.
  rewrite perform_all; try assumption; try lia.
  - cbv zeta. fold ws. replace (map (message_of k) ws) with ws.
    2:{ symmetry. rewrite <- (map_id ws) at 2. apply map_ext_in. intros w I. unfold message_of. rewrite (proj2 (HW w I)). reflexivity. }
    replace (sum (map (num_corrections k) ws)) with 0.
    2:{ symmetry. clear -HW. induction ws as [|w ws IH]; [reflexivity|]. change (num_corrections k w + sum (map (num_corrections k) ws) = 0). rewrite IH by (intros; apply HW; right; assumption).
        unfold num_corrections. rewrite (proj2 (HW w ltac:(left; reflexivity))). reflexivity. }
    unfold ws. rewrite interleaved_codewords by (try lia; apply filled_length; assumption). rewrite HRP.
    unfold right_length in HR. rewrite firstn_length, filled_length by exact HR.
    replace (rs_virtual_fill c <=? _) with true by (symmetry; apply Nat.leb_le; lia).
    assert (X : skipn (rs_virtual_fill c) (firstn (223 * rs_interleave c) (filled c block)) = firstn (length block - 32 * rs_interleave c) block).
    { unfold filled. rewrite skipn_firstn_comm, skipn_app_ge, repeat_length, Nat.sub_diag by (rewrite repeat_length; lia).
      rewrite skipn_O. f_equal. lia. }
    rewrite X. reflexivity.
  - apply Forall_forall. intros w I. exists w. rewrite (proj2 (HW w I)). cbn. rewrite (HL w I). split; [reflexivity|lia].
  - apply Forall_forall. intros w I [[X1 X2]|X].
    + rewrite (proj1 (HW w I) X1) in X2. discriminate.
    + unfold is_uncorrectable in X. rewrite (proj2 (HW w I)) in X. discriminate.
Qed.
Print Assumptions C41_transparent.

(* ---- C42 ---- *)
Theorem C42_error_iff : forall k c block, codec_ok k -> 1 <= rs_interleave c -> rs_parity_len c = 32 ->
  rs_virtual_fill c <= 223 * rs_interleave c ->
  ((exists e, perform k c block = Val (Err e)) <-> length block + rs_virtual_fill c <> 255 * rs_interleave c).
Proof.
  intros k c block HK HI HP HV. split.
  - intros [e E] HR. destruct (first_stop k c (codewords (rs_interleave c) (filled c block))) as [A|(p & w & q & HW & A & B)].
    + rewrite perform_all in E; try assumption; try lia; [|eapply ok_answers; [exact HK|apply words_255|exact A]].
      destruct (_ <=? _) in E; discriminate.
    + assert (W5 := words_255 (rs_interleave c) (filled c block)). rewrite HW in W5. apply Forall_app in W5.
      rewrite (perform_stops k c block p w q) in E; try assumption; try lia; [discriminate|]. eapply ok_answers; [exact HK|apply W5|exact A].
  - intro H. eexists. apply perform_wrong. exact H.
Qed.
Print Assumptions C42_error_iff.
Theorem C42_error_kind : forall k c block e, perform k c block = Val (Err e) -> e = IntegrityAlgorithm.
Proof.
  intros k c block e. unfold perform. destruct (negb _); [congruence|]. destruct (deinterleave _ _); [|discriminate]. cbn [obind].
  destruct (perform_loop _ _ _ _ _ _ _) as [[r|[d n]]|]; cbn [obind]; try discriminate.
  destruct (if rs_remove_parity c then _ else _); [|discriminate]. cbn [obind]. destruct (slice_from _ _); discriminate.
Qed.
Print Assumptions C42_error_kind.
Theorem C42_uncorrectable_iff : forall k c block, codec_ok k -> 1 <= rs_interleave c -> right_length c block ->
  rs_parity_len c = 32 -> rs_correct c = true -> rs_virtual_fill c <= 223 * rs_interleave c ->
  ((exists data, perform k c block = Val (Ok (IUncorrectable, data))) <->
   exists i, i < rs_interleave c /\ is_uncorrectable k (codeword (rs_interleave c) (filled c block) i)).
Proof.
  intros k c block HK HI HR HP HC HV.
  destruct (first_stop k c (codewords (rs_interleave c) (filled c block))) as [A|(p & w & q & HW & A & B)].
  - split.
    + intros [d E]. rewrite perform_all in E; try assumption; try lia; [|eapply ok_answers; [exact HK|apply words_255|exact A]].
      destruct (_ <=? _) in E; [|discriminate]. destruct (sum _ =? 0) in E; discriminate.
    + intros (i & Hi & U). rewrite Forall_forall in A. destruct (A (codeword (rs_interleave c) (filled c block) i)); [|right; exact U].
      unfold codewords. apply in_map. apply in_seq. lia.
  - assert (BU : is_uncorrectable k w) by (destruct B as [[X _]|X]; [congruence|exact X]). split; intros _.
    + assert (I : In w (codewords (rs_interleave c) (filled c block))) by (rewrite HW; apply in_or_app; right; left; reflexivity).
      unfold codewords in I. apply in_map_iff in I. destruct I as (i & <- & Ii). apply in_seq in Ii. exists i. split; [lia|exact BU].
    + assert (W5 := words_255 (rs_interleave c) (filled c block)). rewrite HW in W5. apply Forall_app in W5.
      rewrite (perform_stops k c block p w q); try assumption; try lia; [|eapply ok_answers; [exact HK|apply W5|exact A]].
      rewrite HC. cbn. eexists. reflexivity.
Qed.
Print Assumptions C42_uncorrectable_iff.
(* no codeword uncorrectable: the codec's messages, interleaved again, without fill and check symbols *)
Theorem C42_corrected_data : forall k c block, codec_ok k -> 1 <= rs_interleave c -> right_length c block ->
  rs_parity_len c = 32 -> rs_correct c = true -> rs_remove_parity c = true -> rs_virtual_fill c <= 223 * rs_interleave c ->
  (forall i, i < rs_interleave c -> ~ is_uncorrectable k (codeword (rs_interleave c) (filled c block) i)) ->
  exists integ data, perform k c block = Val (Ok (integ, data)) /\
    (integ = IOk \/ integ = ICorrected) /\
    (integ = IOk <-> forall i, i < rs_interleave c -> num_corrections k (codeword (rs_interleave c) (filled c block) i) = 0) /\
    length data = length block - 32 * rs_interleave c /\
    forall j, j < length data ->
      nth j data 0%N =
      nth ((rs_virtual_fill c + j) / rs_interleave c)
          (message_of k (codeword (rs_interleave c) (filled c block) ((rs_virtual_fill c + j) mod rs_interleave c))) 0%N.
Proof.
  intros k c block HK HI HR HP HC HRP HV HU. set (il := rs_interleave c) in *. set (vf := rs_virtual_fill c) in *.
  assert (A : Forall (fun w => ~ stops k c w) (codewords il (filled c block))).
  { apply Forall_forall. intros w I [[X _]|X]; [congruence|]. unfold codewords in I. apply in_map_iff in I. destruct I as (i & <- & Ii). apply in_seq in Ii.
    apply (HU i); [lia|exact X]. }
  eexists; eexists. split.
  - rewrite perform_all; try assumption; try (fold il; lia); [|eapply ok_answers; [exact HK|apply words_255|exact A]].
    fold il vf. rewrite HRP, firstn_length, interleaved_length. replace (vf <=? _) with true by (symmetry; apply Nat.leb_le; lia). reflexivity.
  - split; [destruct (_ =? 0); auto|]. split; [|split].
    + assert (SZ : sum (map (num_corrections k) (codewords il (filled c block))) = 0 <-> forall i, i < il -> num_corrections k (codeword il (filled c block) i) = 0).
      { unfold codewords. rewrite map_map. split.
        - intros H i Hi. assert (G : forall l, sum l = 0 -> forall x, In x l -> x = 0).
          { induction l as [|y l IH]; intros S0 x I; [destruct I|]. cbn in S0. destruct I as [<-|I]; [lia|apply IH; [unfold sum; lia|exact I]]. }
          apply (G _ H). apply (in_map (fun x => num_corrections k (codeword il (filled c block) x))). apply in_seq. lia.
        - intro H. assert (G : forall l, (forall x, In x l -> x = 0) -> sum l = 0).
          { induction l as [|y l IH]; intro S0; [reflexivity|]. cbn. rewrite (S0 y) by (left; reflexivity). apply IH. intros; apply S0; right; assumption. }
          apply G. intros x I. apply in_map_iff in I. destruct I as (i & <- & Ii). apply in_seq in Ii. apply H. lia. }
      rewrite <- SZ. destruct (Nat.eqb_spec (sum (map (num_corrections k) (codewords il (filled c block)))) 0); split; intro; congruence.
    + rewrite skipn_length, firstn_length, interleaved_length. unfold right_length in HR. fold il vf in HR. lia.
    + rewrite skipn_length, firstn_length, interleaved_length. intros j Hj.
      assert (NS : forall (l : list N) n i, nth i (skipn n l) 0%N = nth (n + i) l 0%N).
      { induction l as [|x l IH]; intros [|n] i; cbn; try reflexivity; [destruct i; reflexivity|apply IH]. }
      rewrite NS.
      assert (NF : forall (l : list N) n i, i < n -> nth i (firstn n l) 0%N = nth i l 0%N).
      { induction l as [|x l IH]; intros [|n] [|i] H; cbn; try reflexivity; try lia. apply IH. lia. }
      rewrite NF by lia. rewrite interleaved_nth by lia. f_equal.
      rewrite (nth_indep _ [] (message_of k [])) by (rewrite map_length, codewords_length; apply Nat.mod_upper_bound; lia).
      rewrite map_nth. f_equal. unfold codewords. apply nth_map_seq. apply Nat.mod_upper_bound. lia.
Qed.
Print Assumptions C42_corrected_data.
(* correction switched off: NotCorrected says that the first codeword which is not clean is one the codec finds errors in *)
Theorem C42_not_corrected_iff : forall k c block, codec_ok k -> 1 <= rs_interleave c -> right_length c block ->
  rs_parity_len c = 32 -> rs_virtual_fill c <= 223 * rs_interleave c ->
  let word i := codeword (rs_interleave c) (filled c block) i in
  ((exists data, perform k c block = Val (Ok (INotCorrected, data))) <->
   rs_correct c = false /\
   exists i, i < rs_interleave c /\ has_errors k (word i) = true /\
     forall j, j < i -> has_errors k (word j) = false /\ ~ is_uncorrectable k (word j)).
Proof.
  intros k c block HK HI HR HP HV word.
  assert (NE : forall pre w post, codewords (rs_interleave c) (filled c block) = pre ++ w :: post ->
    length pre < rs_interleave c /\ w = word (length pre) /\ forall j, j < length pre -> In (word j) pre).
  { intros pre w post E. assert (L := codewords_length (rs_interleave c) (filled c block)). rewrite E, app_length in L. cbn [length] in L.
    assert (G : forall j, j < rs_interleave c -> nth j (pre ++ w :: post) [] = word j).
    { intros j Hj. rewrite <- E. unfold codewords. rewrite nth_map_seq by exact Hj. reflexivity. }
    split; [lia|]. split; [rewrite <- (G (length pre)) by lia; rewrite app_nth2, Nat.sub_diag by lia; reflexivity|].
    intros j Hj. rewrite <- (G j) by lia. rewrite app_nth1 by exact Hj. apply nth_In. exact Hj. }
  destruct (first_stop k c (codewords (rs_interleave c) (filled c block))) as [A|(p & w & q & HW & A & B)].
  - split.
    + intros [d E]. rewrite perform_all in E; try assumption; try lia; [|eapply ok_answers; [exact HK|apply words_255|exact A]].
      destruct (_ <=? _) in E; [|discriminate]. destruct (sum _ =? 0) in E; discriminate.
    + intros (HC & i & Hi & U & _). rewrite Forall_forall in A. destruct (A (word i)); [|left; auto].
      unfold word, codewords. apply in_map. apply in_seq. lia.
  - assert (W5 := words_255 (rs_interleave c) (filled c block)). rewrite HW in W5. apply Forall_app in W5.
    rewrite (perform_stops k c block p w q); try assumption; try lia; [|eapply ok_answers; [exact HK|apply W5|exact A]].
    destruct (NE _ _ _ HW) as (LP & EW & IN). rewrite Forall_forall in A. split.
    + intros [d E]. destruct (negb (rs_correct c) && has_errors k w) eqn:T; [|discriminate]. apply andb_prop in T. destruct T as [T1 T2].
      apply Bool.negb_true_iff in T1. split; [exact T1|]. exists (length p). split; [exact LP|]. split; [rewrite <- EW; exact T2|].
      intros j Hj. specialize (A _ (IN j Hj)). split; [destruct (has_errors k (word j)) eqn:X; [exfalso; apply A; left; auto|reflexivity]|intro X; apply A; right; exact X].
    + intros (HC & i & Hi & U & F).
      assert (i = length p).
      { destruct (Nat.lt_trichotomy i (length p)) as [L|[L|L]]; [exfalso; apply (A _ (IN i L)); left; auto|exact L|].
        exfalso. destruct (F _ L) as [F1 F2]. rewrite <- EW in F1, F2. destruct B as [[_ B]|B]; [congruence|contradiction]. }
      subst i. rewrite <- EW in U. rewrite HC, U. cbn. eexists. reflexivity.
Qed.
Print Assumptions C42_not_corrected_iff.
(* and where the codec finds no errors it makes no difference *)
Theorem C42_correction_off_clean : forall k c block, 1 <= rs_interleave c -> right_length c block ->
  (forall i, i < rs_interleave c -> has_errors k (codeword (rs_interleave c) (filled c block) i) = false) ->
  perform k (rs_with_correction c false) block = perform k (rs_with_correction c true) block.
Proof.
  intros k c block HI HR HE. unfold right_length in HR.
  assert (D : deinterleave (filled c block) (rs_interleave c) = Val (codewords (rs_interleave c) (filled c block))).
  { rewrite C41_codewords by (try exact HI; unfold filled; rewrite app_length, repeat_length; lia). reflexivity. }
  assert (HW : forall w, In w (codewords (rs_interleave c) (filled c block)) -> has_errors k w = false).
  { intros w I. unfold codewords in I. apply in_map_iff in I. destruct I as (i & <- & Ii). apply in_seq in Ii. apply HE. lia. }
  unfold perform. cbn [rs_with_correction rs_interleave rs_virtual_fill rs_remove_parity]. destruct (negb _); [reflexivity|]. cbv zeta.
  fold (filled c block). rewrite D. cbn [obind].
  assert (E : forall d i o n, perform_loop k (rs_with_correction c false) d i (codewords (rs_interleave c) (filled c block)) o n =
                              perform_loop k (rs_with_correction c true) d i (codewords (rs_interleave c) (filled c block)) o n).
  { revert HW. generalize (codewords (rs_interleave c) (filled c block)). induction l as [|m ms IH]; intros HW d i o n; [reflexivity|].
    cbn [perform_loop rs_with_correction rs_correct rs_interleave negb andb]. rewrite (HW m (or_introl eq_refl)).
    destruct (correct_message k m) as [st om]. destruct st, om; try reflexivity; destruct (write_message _ _ _ _ _); try reflexivity; cbn [obind]; apply IH; intros w I; apply HW; right; exact I. }
  rewrite E. reflexivity.
Qed.
Print Assumptions C42_correction_off_clean.
Theorem C42_panic_exact : forall k c block, codec_ok k -> 1 <= rs_interleave c -> rs_parity_len c = 32 ->
  (perform k c block = Panic <->
   right_length c block /\ rs_remove_parity c = true /\ 223 * rs_interleave c < rs_virtual_fill c /\
   forall i, i < rs_interleave c ->
     ~ is_uncorrectable k (codeword (rs_interleave c) (filled c block) i) /\
     (rs_correct c = true \/ has_errors k (codeword (rs_interleave c) (filled c block) i) = false)).
Proof.
  intros k c block HK HI HP.
  assert (HD : right_length c block \/ ~ right_length c block) by (unfold right_length; lia).
  destruct HD as [HR|HR]; [|rewrite perform_wrong by exact HR; split; [discriminate|tauto]].
  assert (ST : Forall (fun w => ~ stops k c w) (codewords (rs_interleave c) (filled c block)) <-> forall i, i < rs_interleave c ->
     ~ is_uncorrectable k (codeword (rs_interleave c) (filled c block) i) /\
     (rs_correct c = true \/ has_errors k (codeword (rs_interleave c) (filled c block) i) = false)).
  { rewrite Forall_forall. unfold codewords. split.
    - intros H i Hi. specialize (H (codeword (rs_interleave c) (filled c block) i)).
      assert (N0 : ~ stops k c (codeword (rs_interleave c) (filled c block) i)) by (apply H; apply in_map; apply in_seq; lia).
      split; [intro X; apply N0; right; exact X|]. destruct (rs_correct c) eqn:E1; [auto|]. right.
      destruct (has_errors k _) eqn:E2; [destruct N0; left; auto|reflexivity].
    - intros H w I. apply in_map_iff in I. destruct I as (i & <- & Ii). apply in_seq in Ii. destruct (H i) as [H1 H2]; [lia|].
      intros [[X1 X2]|X]; [destruct H2; congruence|contradiction]. }
  rewrite <- ST. destruct (first_stop k c (codewords (rs_interleave c) (filled c block))) as [A|(p & w & q & HW & A & B)].
  - rewrite perform_all; try assumption; try lia; [|eapply ok_answers; [exact HK|apply words_255|exact A]].
    unfold right_length in HR. destruct (rs_remove_parity c).
    + rewrite firstn_length, interleaved_length. destruct (Nat.leb_spec (rs_virtual_fill c) (Nat.min (223 * rs_interleave c) (255 * rs_interleave c))).
      * split; [discriminate|lia].
      * split; [intros _|reflexivity]. repeat split; auto; lia.
    + rewrite interleaved_length. replace (rs_virtual_fill c <=? 255 * rs_interleave c) with true by (symmetry; apply Nat.leb_le; lia).
      split; [discriminate|intros (_ & X & _); discriminate].
  - assert (W5 := words_255 (rs_interleave c) (filled c block)). rewrite HW in W5. apply Forall_app in W5.
    rewrite (perform_stops k c block p w q); try assumption; try lia; [|eapply ok_answers; [exact HK|apply W5|exact A]].
    split; [discriminate|]. intros (_ & _ & _ & X). rewrite HW in X. apply Forall_app in X. destruct X as [_ X]. inversion X. contradiction.
Qed.
Print Assumptions C42_panic_exact.

(* ---- C43 ---- *)
(* the detection switch has no effect *)
Theorem C43_detection_ignored : forall k c b block, perform k (rs_with_detection c b) block = perform k c block.
Proof.
  intros k c b block. unfold perform. cbn [rs_with_detection rs_interleave rs_virtual_fill rs_remove_parity].
  destruct (negb _); [reflexivity|]. destruct (deinterleave _ _) as [ms|]; [|reflexivity]. cbn [obind].
  assert (E : forall d i o n, perform_loop k (rs_with_detection c b) d i ms o n = perform_loop k c d i ms o n).
  { induction ms as [|m ms IH]; intros d i o n; [reflexivity|]. cbn [perform_loop rs_with_detection rs_correct rs_interleave].
    destruct (negb (rs_correct c) && has_errors k m); [reflexivity|]. destruct (correct_message k m) as [[] [x|]]; try reflexivity;
      (destruct (write_message _ _ _ _ _); [cbn [obind]; apply IH|reflexivity]). }
  rewrite E. reflexivity.
Qed.
Print Assumptions C43_detection_ignored.
(* a codec whose only codeword is all zero and which corrects nothing *)
Definition is_zero (w : list N) : bool := forallb (fun b => (b =? 0)%N) w.
Definition zero_codec : codec :=
  mkCodec (fun w => negb (is_zero w)) (fun w => if is_zero w then (RsOk, Some w) else (RsUncorrectable, None)).
Lemma zero_codec_ok : codec_ok zero_codec.
Proof.
  intros w HL. cbn. destruct (is_zero w); cbn; [|congruence]. intros _. exists w. split; [reflexivity|lia].
Qed.
Theorem C43_detection_off_refuted : exists k c block, codec_ok k /\ rs_detect c = false /\ right_length c block /\
  (exists data, perform k c block = Val (Ok (IUncorrectable, data))) /\
  (exists data, perform k (rs_with_correction c false) block = Val (Ok (INotCorrected, data)) /\ length data = length block).
Proof.
  exists zero_codec, (rs_with_detection (rs_new 1) false), (1%N :: repeat 0%N 254).
  split; [exact zero_codec_ok|]. split; [reflexivity|]. split; [reflexivity|]. split; eexists; [|split]; vm_compute; reflexivity.
Qed.
Print Assumptions C43_detection_off_refuted.

(* ---- C44 ---- *)
Theorem C44_returned_data : forall k c block data, codec_ok k -> 1 <= rs_interleave c -> rs_parity_len c = 32 ->
  (perform k c block = Val (Ok (INotCorrected, data)) -> data = repeat 0%N (rs_virtual_fill c) ++ block) /\
  (perform k c block = Val (Ok (IUncorrectable, data)) ->
     data = firstn (223 * rs_interleave c) (repeat 0%N (rs_virtual_fill c) ++ block)).
Proof.
  intros k c block data HK HI HP.
  assert (HD : right_length c block \/ ~ right_length c block) by (unfold right_length; lia).
  destruct HD as [HR|HR]; [|rewrite perform_wrong by exact HR; split; discriminate].
  destruct (first_stop k c (codewords (rs_interleave c) (filled c block))) as [A|(p & w & q & HW & A & B)].
  - rewrite perform_all; try assumption; try lia; [|eapply ok_answers; [exact HK|apply words_255|exact A]].
    destruct (_ <=? _); [|split; discriminate]. destruct (sum _ =? 0); split; discriminate.
  - assert (W5 := words_255 (rs_interleave c) (filled c block)). rewrite HW in W5. apply Forall_app in W5.
    rewrite (perform_stops k c block p w q); try assumption; try lia; [|eapply ok_answers; [exact HK|apply W5|exact A]].
    destruct (negb (rs_correct c) && has_errors k w); split; intro E; try discriminate; injection E as <-; reflexivity.
Qed.
Print Assumptions C44_returned_data.
(* so an uncorrectable block loses its check symbols, and virtual fill is left in front of a block that was
   not corrected *)
Theorem C44_check_symbols_refuted : forall k c block data, codec_ok k -> 1 <= rs_interleave c -> rs_parity_len c = 32 ->
  (rs_virtual_fill c = 0 -> perform k c block = Val (Ok (IUncorrectable, data)) ->
     length data = length block - 32 * rs_interleave c /\ data <> block) /\
  (0 < rs_virtual_fill c -> perform k c block = Val (Ok (INotCorrected, data)) ->
     length data = length block + rs_virtual_fill c /\ data <> block).
Proof.
  intros k c block data HK HI HP. destruct (C44_returned_data k c block data HK HI HP) as [A B]. split; intros HV H.
  - assert (HD : right_length c block).
    { destruct (Nat.eq_dec (length block + rs_virtual_fill c) (255 * rs_interleave c)) as [E|E]; [exact E|]. rewrite perform_wrong in H by exact E. discriminate. }
    apply B in H. unfold right_length in HD.
    assert (L : length data = 223 * rs_interleave c) by (rewrite H, firstn_length, app_length, repeat_length; lia).
    split; [lia|]. intros ->. lia.
  - apply A in H. assert (L : length data = length block + rs_virtual_fill c) by (rewrite H, app_length, repeat_length; lia).
    split; [exact L|]. intros ->. lia.
Qed.
Print Assumptions C44_check_symbols_refuted.
(* in the pipeline stage the data of such frames stay as they were *)
Theorem C44_stage_keeps_data : forall k c f f', rs_job k c f = Val f' ->
  f_header f' = f_header f /\ f_missing f' = f_missing f /\
  (v_vcid (f_header f) = VCID_FILL -> f' = f) /\
  (v_vcid (f_header f) <> VCID_FILL -> f_integrity f' = Some IUncorrectable \/ f_integrity f' = Some INotCorrected -> f_data f' = f_data f).
Proof.
  intros k c f f'. unfold rs_job. destruct (N.eqb_spec (v_vcid (f_header f)) VCID_FILL) as [E|E]; cbn [negb].
  - intro H. injection H as <-. repeat split; auto; contradiction.
  - destruct (perform k c (f_data f)) as [[[i d]|e]|]; cbn [obind]; try discriminate. intro H. injection H as <-. cbn [f_header f_missing f_integrity f_data].
    repeat split; auto; try contradiction. intros _ [X|X]; injection X as ->; reflexivity.
Qed.
Print Assumptions C44_stage_keeps_data.

(* ---- C47 ---- *)
(* a codec with one codeword, correcting everything to it *)
Definition eqb_list (a b : list N) : bool := if list_eq_dec N.eq_dec a b then true else false.
Definition single_codec (target : list N) : codec :=
  mkCodec (fun w => negb (eqb_list w target)) (fun w => if eqb_list w target then (RsOk, Some w) else (RsCorrected 1, Some target)).
Lemma single_codec_ok : forall t, length t = 255 -> codec_ok (single_codec t).
Proof. intros t HT w HL. cbn. destruct (eqb_list w t); cbn; intros _; eexists; (split; [reflexivity|lia]). Qed.
Definition ex_word : list N := [103; 80; 0; 0; 4; 0]%N ++ repeat 0%N 249.
Definition ex_received : list N := [103; 81; 0; 0; 4; 0]%N ++ repeat 0%N 249.
Theorem C47_stale_header_refuted : exists k c f f', codec_ok k /\
  vcdu_decode (f_data f) = Val (Some (f_header f)) /\ rs_job k c f = Val f' /\ f_integrity f' = Some ICorrected /\
  vcdu_decode (f_data f') <> Val (Some (f_header f')).
Proof.
  exists (single_codec ex_word), (rs_new 1), (mkFrame (mkVcdu 1 157 17 4) 0 None ex_received).
  eexists. split; [apply single_codec_ok; reflexivity|]. split; [vm_compute; reflexivity|]. split; [vm_compute; reflexivity|].
  split; [reflexivity|]. vm_compute. discriminate.
Qed.
Print Assumptions C47_stale_header_refuted.
(* without corrections header and data agree *)
Theorem C47_header_agrees_if_unchanged : forall k c f f', 1 <= rs_interleave c -> rs_parity_len c = 32 -> rs_remove_parity c = true ->
  rs_virtual_fill c <= 223 * rs_interleave c -> 6 + 32 * rs_interleave c <= length (f_data f) -> bytes_ok (f_data f) ->
  right_length c (f_data f) ->
  (forall i, i < rs_interleave c ->
     (rs_correct c = false -> has_errors k (codeword (rs_interleave c) (filled c (f_data f)) i) = false) /\
     correct_message k (codeword (rs_interleave c) (filled c (f_data f)) i) =
       (RsOk, Some (codeword (rs_interleave c) (filled c (f_data f)) i))) ->
  vcdu_decode (f_data f) = Val (Some (f_header f)) -> rs_job k c f = Val f' ->
  vcdu_decode (f_data f') = Val (Some (f_header f')) /\
  (v_vcid (f_header f) <> VCID_FILL -> f_integrity f' = Some IOk).
Proof.
  intros k c f f' HI HP HRP HV HL Hb HR HE HD HJ. unfold rs_job in HJ.
  destruct (N.eqb_spec (v_vcid (f_header f)) VCID_FILL) as [E|E]; cbn [negb] in HJ.
  - injection HJ as <-. split; [exact HD|contradiction].
  - rewrite C41_transparent in HJ by assumption. cbn [obind] in HJ. injection HJ as <-. cbn [f_data f_header f_integrity]. split; [|reflexivity].
    rewrite <- HD. set (n := length (f_data f) - 32 * rs_interleave c). assert (6 <= n) by (unfold n; lia).
    rewrite !vcdu_decode_spec; try assumption; try (apply bytes_ok_firstn; assumption); try lia.
    2:{ rewrite firstn_length. unfold n. lia. }
    assert (F : forall s l, s + l <= 48 -> field (firstn n (f_data f)) s l = field (f_data f) s l).
    { intros s l Hs. rewrite <- (firstn_skipn n (f_data f)) at 2. symmetry. apply field_app_l. rewrite firstn_length. unfold n. lia. }
    rewrite !F by lia. reflexivity.
Qed.
Print Assumptions C47_header_agrees_if_unchanged.

(* ---- concrete cases ---- *)
Definition ex_block : list N := map (fun i => N.of_nat i mod 256)%N (seq 0 510).
Definition id_codec : codec := mkCodec (fun _ => false) (fun w => (RsOk, Some w)).
Example C41_ex : right_length (rs_new 2) ex_block /\ perform id_codec (rs_new 2) ex_block = Val (Ok (IOk, firstn 446 ex_block)).
Proof. split; [reflexivity|]. vm_compute. reflexivity. Qed.
Example C42_ex : let c := rs_with_virtual_fill (rs_new 1) 10 in right_length c (skipn 10 ex_received) /\
  exists d, perform (single_codec ex_word) c (skipn 10 ex_received) = Val (Ok (ICorrected, d)).
Proof. split; [reflexivity|]. eexists. vm_compute. reflexivity. Qed.
Example C44_ex : (exists d, perform zero_codec (rs_new 1) (1%N :: repeat 0%N 254) = Val (Ok (IUncorrectable, d)) /\ length d = 223) /\
  (exists d, perform zero_codec (rs_with_virtual_fill (rs_with_correction (rs_new 1) false) 5) (1%N :: repeat 0%N 249) = Val (Ok (INotCorrected, d)) /\ length d = 255).
Proof. split; eexists; split; vm_compute; reflexivity. Qed.
