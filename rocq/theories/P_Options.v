(* Property C76: the Reed-Solomon option builders, their defaults, and which options affect the output *)
From Verif Require Import Base S_Options M_Reader M_Bytes M_Sync M_Pn M_Frame M_ReedSolomon M_RsPipeline M_Pipeline
  L_Base L_RsPipeline P_Pipeline P_RsPipeline P_RsLive P_ReedSolomon.
Open Scope nat_scope.


Lemma opts_last : forall calls o, let o' := fold_left call_opt calls o in
  ro_interleave o' = ro_interleave o /\ ro_virtual_fill o' = last_of fill_call (ro_virtual_fill o) calls /\
  ro_correct o' = last_of correction_call (ro_correct o) calls /\ ro_buffer_size o' = last_of buffer_call (ro_buffer_size o) calls /\
  ro_num_threads o' = last_of threads_call (ro_num_threads o) calls.
Proof.
  induction calls as [|c calls IH]; intro o; [repeat split; reflexivity|]. cbn [fold_left last_of]. specialize (IH (call_opt o c)).
  cbv zeta in *. destruct IH as (H1 & H2 & H3 & H4 & H5). rewrite H1, H2, H3, H4, H5. destruct c; repeat split; reflexivity.
Qed.
Lemma rs_last : forall calls c, let c' := fold_left call_rs calls c in
  rs_interleave c' = rs_interleave c /\ rs_parity_len c' = rs_parity_len c /\ rs_virtual_fill c' = last_of rs_fill_call (rs_virtual_fill c) calls /\
  rs_correct c' = last_of rs_correction_call (rs_correct c) calls /\ rs_remove_parity c' = last_of rs_parity_call (rs_remove_parity c) calls.
Proof.
  induction calls as [|x calls IH]; intro c; [repeat split; reflexivity|]. cbn [fold_left last_of]. specialize (IH (call_rs c x)).
  cbv zeta in *. destruct IH as (H1 & H2 & H3 & H4 & H5). rewrite H1, H2, H3, H4, H5. destruct x; repeat split; reflexivity.
Qed.

(* detection plays no part in the algorithm *)
Lemma loop_detect : forall k c c' f, rs_correct c = rs_correct c' -> rs_interleave c = rs_interleave c' -> rs_parity_len c = rs_parity_len c' ->
  forall ms i out num, perform_loop k c f i ms out num = perform_loop k c' f i ms out num.
Proof.
  intros k c c' f H1 H2 H3. induction ms as [|m ms IH]; intros i out num; [reflexivity|]. cbn [perform_loop]. rewrite H1, H2.
  destruct (negb (rs_correct c') && has_errors k m); [reflexivity|]. destruct (correct_message k m) as [st om].
  unfold remove_parity. rewrite H2, H3.
  destruct st; try reflexivity; (destruct om as [msg|]; [|reflexivity]; destruct (write_message _ _ _ _) as [o|]; [apply IH|reflexivity]).
Qed.
Lemma perform_detect : forall k c c' block, rs_correct c = rs_correct c' -> rs_interleave c = rs_interleave c' -> rs_parity_len c = rs_parity_len c' ->
  rs_remove_parity c = rs_remove_parity c' -> rs_virtual_fill c = rs_virtual_fill c' -> perform k c block = perform k c' block.
Proof.
  intros k c c' block H1 H2 H3 H4 H5. unfold perform. rewrite H2, H5.
  destruct (negb (can_correct block (rs_interleave c') (rs_virtual_fill c'))); [reflexivity|].
  destruct (deinterleave _ _) as [ms|]; [|reflexivity]. cbn [obind]. rewrite (loop_detect k c c') by assumption.
  destruct (perform_loop _ _ _ _ _ _ _) as [[x|[d n]]|]; cbn [obind]; try reflexivity. unfold remove_parity. rewrite H2, H3, H4. reflexivity.
Qed.

(* ---- DefaultReedSolomon ---- *)
(* The result of perform depends only on the last call of each kind: without calls there is no virtual fill, errors
   are corrected and check symbols removed; with_detection has no effect. *)
Theorem C76_perform_calls : forall k il calls calls' block,
  last_of rs_fill_call 0 calls = last_of rs_fill_call 0 calls' ->
  last_of rs_correction_call true calls = last_of rs_correction_call true calls' ->
  last_of rs_parity_call true calls = last_of rs_parity_call true calls' ->
  perform k (rs_of il calls) block = perform k (rs_of il calls') block.
Proof.
  intros k il calls calls' block H1 H2 H3. destruct (rs_last calls (rs_new il)) as (A1 & A2 & A3 & A4 & A5).
  destruct (rs_last calls' (rs_new il)) as (B1 & B2 & B3 & B4 & B5).
  apply perform_detect; unfold rs_of; [rewrite A4, B4|rewrite A1, B1|rewrite A2, B2|rewrite A5, B5|rewrite A3, B3]; try reflexivity; assumption.
Qed.
Print Assumptions C76_perform_calls.

(* ---- RsOpts ---- *)
Lemma stage_perform : forall k il calls block,
  perform k (rs_of_opts (opts_of il calls)) block =
  perform k (rs_of il [RsVirtualFill (last_of fill_call 0 calls); RsCorrection (last_of correction_call true calls)]) block.
Proof.
  intros k il calls block. destruct (opts_last calls (rs_opts_new il)) as (A1 & A2 & A3 & _). fold (opts_of il calls) in A1, A2, A3.
  apply perform_detect; unfold rs_of_opts, rs_of; cbn [fold_left call_rs rs_with_virtual_fill rs_with_correction rs_with_detection rs_correct rs_interleave rs_parity_len rs_remove_parity rs_virtual_fill rs_new];
    try reflexivity; [exact A3|exact A1|exact A2].
Qed.
Lemma rs_job_ext : forall k c c', (forall block, perform k c block = perform k c' block) -> forall f, rs_job k c f = rs_job k c' f.
Proof. intros k c c' H f. unfold rs_job. rewrite H. reflexivity. Qed.

(* The stage applies to every frame that is not fill what DefaultReedSolomon does with the last virtual fill given
   (none by default) and the last correction setting (on by default). *)
Theorem C76_stage_is_library : forall ovf k nthreads p r il calls out,
  pipeline_start ovf k nthreads (pipeline_with_rs p (opts_of il calls)) r out ->
  exists items frames,
    yields biter_next (synchronize r [26; 207; 252; 29]%N (pl_block_length p)) items /\
    decoded_frames ovf (Some (opts_of il calls)) (if pl_derandomize p then derandomize (oks items) else oks items) frames /\
    Forall2 (corrected_by k (rs_of il [RsVirtualFill (last_of fill_call 0 calls); RsCorrection (last_of correction_call true calls)])) frames out.
Proof.
  intros ovf k nt p r il calls out [items blocks frames out' Y1 EB Y2 HR]. cbn [pl_rs pipeline_with_rs] in HR, Y2. exists items, frames.
  split; [exact Y1|]. split; [subst blocks; exact Y2|]. destruct HR as (s & R & E & <-). apply ended_all in R; [|exact E].
  clear -R. induction R as [|f f' fs fs' J _ IH]; constructor; [|exact IH]. assert (K := C44_stage_keeps_data _ _ _ _ J). destruct K as (K1 & K2 & K3 & _).
  split; [exact K1|]. split; [exact K2|]. split; [exact K3|]. intro NF. unfold rs_job in J. change VCID_FILL with 63%N in J.
  destruct (N.eqb_spec (v_vcid (f_header f)) 63); [contradiction|]. cbn [negb] in J. rewrite stage_perform in J.
  destruct (perform _ _ _) as [[[i d]|e]|]; cbn [obind] in J; try discriminate. injection J as <-. exists i, d. cbn [f_integrity f_data]. auto.
Qed.
Print Assumptions C76_stage_is_library.

Lemma panics_det : forall S A (next : S -> outcome (option A * S)) s l1 l2, panics_after next s l1 -> panics_after next s l2 -> l1 = l2.
Proof.
  intros S A next s l1 l2 H. revert l2. induction H as [s E|s s' a l E _ IH]; intros l2 H2; inversion H2; subst; try congruence.
  rewrite E in H. injection H as <- <-. f_equal. apply IH. assumption.
Qed.
(* Number of threads, buffer size and detection do not influence the output: two stages that agree in the last
   virtual fill and correction settings deliver the same, under every schedule of either. *)
Theorem C76_same_output : forall ovf k n1 n2 p r il calls1 calls2 out1 out2,
  last_of fill_call 0 calls1 = last_of fill_call 0 calls2 -> last_of correction_call true calls1 = last_of correction_call true calls2 ->
  pipeline_start ovf k n1 (pipeline_with_rs p (opts_of il calls1)) r out1 ->
  pipeline_start ovf k n2 (pipeline_with_rs p (opts_of il calls2)) r out2 -> out1 = out2.
Proof.
  intros ovf k n1 n2 p r il calls1 calls2 out1 out2 HF HC [items1 blocks1 fs1 o1 Y1 EB1 D1 R1] [items2 blocks2 fs2 o2 Y2 EB2 D2 R2].
  cbn [pl_rs pipeline_with_rs pl_block_length pl_derandomize] in *.
  rewrite (yields_det _ _ _ _ _ _ Y2 Y1) in EB2. rewrite <- EB1 in EB2. subst blocks2.
  assert (fs2 = fs1).
  { destruct D1 as [D1|[_ D1]], D2 as [D2|[_ D2]].
    - eapply yields_det; eassumption.
    - destruct (yields_not_panics _ _ _ _ _ _ D1 D2).
    - destruct (yields_not_panics _ _ _ _ _ _ D2 D1).
    - eapply panics_det; eassumption. }
  subst fs2. destruct R1 as (s1 & R1 & E1 & <-), R2 as (s2 & R2 & E2 & <-). apply ended_all in R1; [|exact E1]. apply ended_all in R2; [|exact E2].
  eapply Forall2_unique; [|exact R1|]; [intros; cbn in *; congruence|]. clear -R2 HF HC. induction R2 as [|f f' fs fs' J _ IH]; constructor; [|exact IH].
  rewrite <- J. apply rs_job_ext. intro block. rewrite !stage_perform. rewrite HF, HC. reflexivity.
Qed.
Print Assumptions C76_same_output.

(* In flight between the upstream iterator and the consumer are at most 3 * b + 2 frames, b being the last buffer size
   given, 50 by default. *)
Theorem C76_in_flight : forall k nthreads il calls frames s,
  let o := opts_of il calls in let b := last_of buffer_call 50 calls in
  reachable (rs_job k (rs_of_opts o)) (ro_buffer_size o) nthreads frames s -> st_consumer s <> CDropped ->
  length frames - length (st_input s) <= length (st_recv s) + 3 * b + 2.
Proof.
  intros k nt il calls frames s o b R NC. destruct (C67_back_pressure _ _ _ _ _ _ R NC) as [B EI]. rewrite EI, skipn_length.
  destruct (opts_last calls (rs_opts_new il)) as (_ & _ & _ & A & _). fold (opts_of il calls) in A. change (ro_buffer_size (rs_opts_new il)) with 50 in A.
  fold o b in A. rewrite A in B. lia.
Qed.
Print Assumptions C76_in_flight.

(* a pipeline that meets the hypotheses: the calls set the virtual fill twice; channel 3, 5, fill, 5 *)
Definition ox_calls : list opt_call := [VirtualFill 7; NumThreads 3; VirtualFill 200; Detection false].
Example C76_ex : exists out,
  pipeline_start true ok_codec 2 (pipeline_with_rs (pipeline_new 55) (opts_of 1 ox_calls)) (reader_of ex_stream) out /\
  map (fun f => length (f_data f)) out = [23; 23; 55; 23].
Proof.
  set (job := rs_job ok_codec (rs_of_opts (opts_of 1 ox_calls))).
  assert (X : exists items frames lens, yields biter_next (synchronize (reader_of ex_stream) ASM 55) items /\
    yields (fdec_next true) (frame_decoder (derandomize (oks items))) frames /\
    lens = map (fun f => match job f with Val f' => Some (length (f_data f')) | Panic => None end) frames /\ lens = map Some [23; 23; 55; 23]).
  { eexists; eexists; eexists. split; [eapply run_yields with (fuel := 10); vm_compute; reflexivity|].
    split; [eapply run_yields with (fuel := 10); vm_compute; reflexivity|]. split; [reflexivity|vm_compute; reflexivity]. }
  destruct X as (items & frames & lens & Y1 & Y2 & EL & EL2). rewrite EL in EL2. clear EL.
  destruct (C46_can_finish _ job 50 2 frames (init frames)) as (ls & s' & E1 & _ & E2 & E3).
  - lia.
  - intros f I X. apply (in_map (fun f => match job f with Val f' => Some (length (f_data f')) | Panic => None end)) in I. rewrite EL2, X in I.
    apply in_map_iff in I. destruct I as (x & I & _). discriminate.
  - exists []. constructor.
  - discriminate.
  - exists (st_recv s'). split.
    + eapply start_intro; [exact Y1|reflexivity|left; exact Y2|]. exists s'. split; [exists ls; exact E1|auto].
    + assert (INJ : forall (l m : list nat), map Some l = map Some m -> l = m).
      { induction l as [|x l IH]; intros [|y m] E; try discriminate; [reflexivity|]. injection E as -> E. f_equal. apply IH. exact E. }
      apply INJ. rewrite <- EL2. rewrite !map_map. clear -E3. revert frames E3. induction (st_recv s') as [|f' l IH]; intros [|f frames] E; try discriminate; [reflexivity|].
      injection E as E0 E. cbn [map]. rewrite <- E0. f_equal. apply IH. exact E.
Qed.
