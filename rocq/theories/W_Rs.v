(* Theorems of C41 - C47, C61, C67 and C76 applied to concrete, non-trivial cases: every hypothesis is met. *)
From Verif Require Import Base L_Base M_Reader M_Sync M_Frame M_ReedSolomon M_RsPipeline M_Pipeline S_ReedSolomon S_RsPipeline S_Options L_ReedSolomon
  P_ReedSolomon P_RsPipeline P_RsDrop P_RsLive P_Pipeline P_Options.
Open Scope nat_scope.

Ltac ok := first [ reflexivity | discriminate | lia | (cbn; lia) | solve [repeat constructor; cbn; (reflexivity || lia)] ].
Ltac split_idx i H := first [exfalso; lia | destruct i as [|i]; [clear H|split_idx i H]].
Ltac each := let i := fresh "i" in let H := fresh "H" in intros i H; cbn in H; split_idx i H.

(* ---- C41, C42, C44, C47: an interleaved block of 2 x 255 bytes; a damaged block with virtual fill; an uncorrectable one ---- *)
Definition c2 : rs_cfg := rs_new 2.
Lemma c2_right : right_length c2 ex_block. Proof. reflexivity. Qed.
Example C41_codewords_at := C41_codewords 2 ex_block ltac:(ok) ltac:(ok).
Lemma id_codec_ok : codec_ok id_codec.
Proof. intros w L _. exists w. cbn. split; [reflexivity|lia]. Qed.
(* two codecs that agree on the codewords of the block and on nothing else *)
Example C41_codec_sees_codewords_at := C41_codec_sees_codewords id_codec
  (mkCodec (fun w => negb (nth 254 w 0%N =? 252)%N && negb (nth 254 w 0%N =? 253)%N)
           (fun w => if ((nth 254 w 0%N =? 252)%N || (nth 254 w 0%N =? 253)%N)%bool then (RsOk, Some w) else (RsUncorrectable, None))) c2 ex_block
  ltac:(ok) c2_right ltac:(each; vm_compute; split; reflexivity).
Example C41_interleave_inverse_at := C41_interleave_inverse 2 ex_block ltac:(ok) ltac:(ok).
Example C41_transparent_at := C41_transparent id_codec c2 ex_block ltac:(ok) c2_right eq_refl eq_refl ltac:(ok) ltac:(each; split; reflexivity).

Definition c10 : rs_cfg := rs_with_virtual_fill (rs_new 1) 10.
Definition damaged : list N := skipn 10 ex_received.
Definition single_ok : codec_ok (single_codec ex_word) := single_codec_ok ex_word eq_refl.
Lemma damaged_right : right_length c10 damaged. Proof. reflexivity. Qed.
Example C42_error_iff_at := C42_error_iff (single_codec ex_word) c10 (removelast damaged) single_ok ltac:(ok) eq_refl ltac:(ok).
Example C42_error_kind_at : exists e, perform id_codec c2 (removelast ex_block) = Val (Err e) /\ e = IntegrityAlgorithm.
Proof.
  destruct (proj2 (C42_error_iff id_codec c2 (removelast ex_block) id_codec_ok ltac:(ok) eq_refl ltac:(ok)) ltac:(vm_compute; discriminate)) as [e H].
  exists e. split; [exact H|]. exact (C42_error_kind _ _ _ _ H).
Qed.
Definition spoilt : list N := 1%N :: repeat 0%N 254.
Example C42_uncorrectable_iff_at := C42_uncorrectable_iff zero_codec (rs_new 1) spoilt zero_codec_ok ltac:(ok) ltac:(ok) eq_refl eq_refl ltac:(ok).
Example C42_uncorrectable_iff_true : exists data, perform zero_codec (rs_new 1) spoilt = Val (Ok (IUncorrectable, data)).
Proof. apply C42_uncorrectable_iff_at. exists 0. split; [cbn; lia|reflexivity]. Qed.
Example C42_corrected_data_at := C42_corrected_data (single_codec ex_word) c10 damaged single_ok ltac:(ok) damaged_right eq_refl eq_refl eq_refl ltac:(ok)
  ltac:(each; intro X; vm_compute in X; discriminate).
Example C42_not_corrected_iff_at := C42_not_corrected_iff zero_codec (rs_with_correction (rs_new 1) false) spoilt zero_codec_ok ltac:(ok) ltac:(ok) eq_refl ltac:(ok).
Example C42_not_corrected_iff_true : exists data, perform zero_codec (rs_with_correction (rs_new 1) false) spoilt = Val (Ok (INotCorrected, data)).
Proof. apply C42_not_corrected_iff_at. split; [reflexivity|]. exists 0. split; [cbn; lia|]. split; [reflexivity|]. intros j X. lia. Qed.
Example C42_correction_off_clean_at := C42_correction_off_clean id_codec c2 ex_block ltac:(ok) c2_right ltac:(each; reflexivity).
(* virtual fill that leaves no room for the check symbols *)
Example C42_panic_exact_at := C42_panic_exact id_codec (rs_with_virtual_fill (rs_new 1) 224) (repeat 0%N 31) id_codec_ok ltac:(ok) eq_refl.
Example C42_panic_exact_true : perform id_codec (rs_with_virtual_fill (rs_new 1) 224) (repeat 0%N 31) = Panic.
Proof.
  apply C42_panic_exact_at. split; [reflexivity|]. split; [reflexivity|]. split; [cbn; lia|].
  intros i X. split; [intro U; discriminate U|left; reflexivity].
Qed.
Example C44_returned_data_at : exists data, perform zero_codec (rs_new 1) spoilt = Val (Ok (IUncorrectable, data)) /\ data = firstn 223 spoilt.
Proof.
  destruct C42_uncorrectable_iff_true as [data H]. exists data. split; [exact H|].
  exact (proj2 (C44_returned_data zero_codec (rs_new 1) spoilt data zero_codec_ok ltac:(ok) eq_refl) H).
Qed.
Example C44_check_symbols_refuted_at : exists data, perform zero_codec (rs_new 1) spoilt = Val (Ok (IUncorrectable, data)) /\ data <> spoilt.
Proof.
  destruct C42_uncorrectable_iff_true as [data H]. exists data. split; [exact H|].
  exact (proj2 (proj1 (C44_check_symbols_refuted zero_codec (rs_new 1) spoilt data zero_codec_ok ltac:(ok) eq_refl) eq_refl H)).
Qed.
Example C44_stage_keeps_data_at : exists f', rs_job zero_codec (rs_new 1) (mkFrame (mkVcdu 1 157 17 4) 2 None spoilt) = Val f' /\ f_data f' = spoilt /\ f_missing f' = 2%N.
Proof.
  eexists. split; [vm_compute; reflexivity|]. split; reflexivity.
Qed.
(* C47: a frame of two codewords without errors *)
Definition clean_frame : frame := mkFrame (mkVcdu 1 157 16 4) 0 None ([103; 80; 0; 0; 4; 0]%N ++ skipn 6 ex_block).
Lemma clean_bytes : bytes_ok (f_data clean_frame).
Proof.
  apply Forall_forall. intros x I. apply in_app_or in I. destruct I as [I|I].
  - cbn in I. repeat (destruct I as [<-|I]; [reflexivity|]). destruct I.
  - assert (J : In x ex_block) by (rewrite <- (firstn_skipn 6 ex_block); apply in_or_app; right; exact I).
    apply in_map_iff in J. destruct J as (i & <- & _). apply N.mod_lt. discriminate.
Qed.
Lemma clean_words : forall i, i < 2 -> (rs_correct c2 = false -> has_errors id_codec (codeword 2 (filled c2 (f_data clean_frame)) i) = false) /\
  correct_message id_codec (codeword 2 (filled c2 (f_data clean_frame)) i) = (RsOk, Some (codeword 2 (filled c2 (f_data clean_frame)) i)).
Proof. intros i _. split; reflexivity. Qed.
Example C47_header_agrees_if_unchanged_at : exists f', rs_job id_codec c2 clean_frame = Val f' /\ vcdu_decode (f_data f') = Val (Some (f_header f')) /\ f_integrity f' = Some IOk.
Proof.
  assert (X : exists f', rs_job id_codec c2 clean_frame = Val f') by (eexists; vm_compute; reflexivity). destruct X as [f' J].
  exists f'. split; [exact J|].
  assert (H1 : 1 <= rs_interleave c2) by (cbn; lia). assert (H2 : rs_virtual_fill c2 <= 223 * rs_interleave c2) by (cbn; lia).
  assert (H3 : 6 + 32 * rs_interleave c2 <= length (f_data clean_frame)) by (apply Nat.leb_le; vm_compute; reflexivity).
  assert (H4 : right_length c2 (f_data clean_frame)) by (vm_compute; reflexivity).
  assert (H5 : vcdu_decode (f_data clean_frame) = Val (Some (f_header clean_frame))) by (vm_compute; reflexivity).
  assert (P := C47_header_agrees_if_unchanged id_codec c2 clean_frame f' H1 eq_refl eq_refl H2 H3 clean_bytes H4 clean_words H5 J).
  destruct P as [A B]. split; [exact A|]. apply B. vm_compute. discriminate.
Qed.

(* ---- C45, C46: two frames, two workers that finish in the other order, rendezvous channels ---- *)
Definition plus10 (n : nat) : outcome nat := Val (n + 10).
Lemma plus10_ok : forall l f, In f l -> plus10 f <> Panic. Proof. discriminate. Qed.
Lemma ran : exists s ls, exec plus10 0 2 (init [1; 2]) ls s /\ st_recv s = [11; 12] /\ st_consumer s = CEnded /\ In (LFinish 1) ls.
Proof.
  destruct C45_ex as (s & R & A & B & ls & E). exists s, (LTake :: LSubmit :: LTake :: LStart 1 :: LStart 0 :: LFinish 1 :: LFinish 0 :: ls). split; [exact E|]. repeat split; try assumption.
  do 5 right. left. reflexivity.
Qed.
Example C45_in_order_at : exists s, reachable plus10 0 2 [1; 2] s /\ nth_error (st_recv s) 1 = Some 12 /\ exists f, nth_error [1; 2] 1 = Some f /\ plus10 f = Val 12.
Proof.
  destruct ran as (s & ls & E & R & _ & _). exists s. split; [exists ls; exact E|]. assert (X : nth_error (st_recv s) 1 = Some 12) by (rewrite R; reflexivity). split; [exact X|].
  exact (proj2 (C45_in_order _ plus10 0 2 [1; 2] s (ex_intro _ ls E)) 1 12 X).
Qed.
Example C45_processed_once_at : exists s ls, exec plus10 0 2 (init [1; 2]) ls s /\ In (LFinish 1) ls /\
  NoDup (flat_map (fun l => match l with LFinish id => [id] | _ => [] end) ls).
Proof. destruct ran as (s & ls & E & _ & _ & I). exists s, ls. split; [exact E|]. split; [exact I|]. exact (proj1 (C45_processed_once _ plus10 0 2 _ ls s E)). Qed.
(* the library's stage on a frame that is corrected and a fill frame *)
Definition stage_frames : list frame := [mkFrame (mkVcdu 1 157 17 4) 2 None ex_received; mkFrame (mkVcdu 1 157 63 9) 0 None [1; 2; 3]%N].
Definition stage_job : frame -> outcome frame := rs_job (single_codec ex_word) (rs_new 1).
Lemma stage_ok : forall f, In f stage_frames -> stage_job f <> Panic.
Proof. intros f [<-|[<-|[]]]; vm_compute; discriminate. Qed.
Example C45_frames_at : exists s f', reachable stage_job 3 2 stage_frames s /\ nth_error (st_recv s) 1 = Some f' /\ f_data f' = [1; 2; 3]%N.
Proof.
  destruct (C46_can_finish _ stage_job 3 2 stage_frames (init stage_frames) ltac:(lia) stage_ok (ex_intro _ [] (exec_nil _ _ _ _)) ltac:(discriminate)) as (ls & s & E & _ & _ & M).
  assert (L := f_equal (@length _) M). rewrite !map_length in L. cbn [length stage_frames] in L.
  destruct (nth_error (st_recv s) 1) as [f'|] eqn:N; [|apply nth_error_None in N; lia].
  exists s, f'. split; [exists ls; exact E|]. split; [exact N|].
  destruct (C45_frames (single_codec ex_word) (rs_new 1) 3 2 stage_frames s 1 f' (ex_intro _ ls E) N) as (f & A & _ & _ & B & _).
  injection A as <-. rewrite (B eq_refl). reflexivity.
Qed.
(* the second frame is rejected: the first may still arrive *)
Definition odd_panics (n : nat) : outcome nat := if Nat.odd n then Panic else Val n.
Example C45_nothing_after_failure_at : exists s, reachable odd_panics 1 1 [2; 3; 4] s /\ st_recv s = [2] /\ length (st_recv s) <= 1.
Proof.
  assert (E : exists ls s, exec odd_panics 1 1 (init [2; 3; 4]) ls s /\ st_recv s = [2]).
  { exists [LTake; LSubmit; LStart 0; LFinish 0; LJob; LResult; LOutput; LRecv]. eexists. split.
    - unfold init. eapply exec_cons; [apply st_take|]. cbn [app]. eapply exec_cons; [apply st_submit_buf; [unfold jobs_cap; cbn; lia|discriminate]|]. cbn [app].
      eapply exec_cons; [apply (st_start _ _ _ _ _ _ [] 0 2 []); cbn; lia|]. cbn [app].
      eapply exec_cons; [apply (st_finish _ _ _ _ _ _ _ [] 0 2 2 []); reflexivity|]. cbn [app].
      eapply exec_cons; [apply st_job|]. eapply exec_cons; [apply (st_result _ _ _ _ _ _ _ _ [] 0 2 [])|]. cbn [app].
      eapply exec_cons; [apply st_out_buf; [unfold out_cap; cbn; lia|discriminate]|]. cbn [app]. eapply exec_cons; [apply st_recv_some|]. apply exec_nil.
    - reflexivity. }
  destruct E as (ls & s & E & R). exists s. split; [exists ls; exact E|]. split; [exact R|].
  exact (C45_nothing_after_failure _ odd_panics 1 1 [2; 3; 4] s 1 3 (ex_intro _ ls E) eq_refl eq_refl).
Qed.
Example C46_terminates_at : exists s ls, exec plus10 0 2 (init [1; 2]) ls s /\ length ls <= 20.
Proof. destruct ran as (s & ls & E & _). exists s, ls. split; [exact E|]. exact (C46_terminates _ plus10 0 2 [1; 2] ls s E). Qed.
Example C46_no_deadlock_at := C46_no_deadlock _ plus10 0 2 [1; 2] (init [1; 2]) ltac:(lia) (plus10_ok _) (ex_intro _ [] (exec_nil _ _ _ _)).
Lemma ended_stuck : forall rc l s', l <> LDrop -> ~ step plus10 0 2 (mkState [] SDone 2 [] [] [] [] DDone [] CEnded rc false) l s'.
Proof. intros rc l s' D X. inversion X; subst; try congruence; match goal with H : _ ++ _ :: _ = [] |- _ => apply app_eq_nil in H; destruct H; discriminate end. Qed.
Lemma ran_to_end : exists ls, exec plus10 0 2 (init [1; 2]) ls (mkState [] SDone 2 [] [] [] [] DDone [] CEnded [11; 12] false).
Proof.
  exists [LTake; LSubmit; LTake; LStart 1; LStart 0; LFinish 1; LFinish 0; LResult; LOutput; LSubmit; LEnd; LResult; LOutput; LJobsClosed; LRecvNone].
  unfold init. eapply exec_cons; [apply st_take|]. eapply exec_cons; [apply st_submit_rdv; reflexivity|].
  eapply exec_cons; [apply st_take|]. cbn [app].
  eapply exec_cons; [apply (st_start _ _ _ _ _ _ [(0, 1)] 1 2 []); cbn; lia|]. cbn [app].
  eapply exec_cons; [apply (st_start _ _ _ _ _ _ [] 0 1 []); cbn; lia|]. cbn [app].
  eapply exec_cons; [apply (st_finish _ _ _ _ _ _ _ [] 1 2 12 [(0, 1)]); reflexivity|]. cbn [app].
  eapply exec_cons; [apply (st_finish _ _ _ _ _ _ _ [] 0 1 11 []); reflexivity|]. cbn [app].
  eapply exec_cons; [apply (st_result _ _ _ _ _ _ _ _ [] 0 11 [(1, 12)])|]. cbn [app].
  eapply exec_cons; [apply st_out_rdv; reflexivity|]. eapply exec_cons; [apply st_submit_rdv; reflexivity|].
  eapply exec_cons; [apply st_end|]. eapply exec_cons; [apply (st_result _ _ _ _ _ _ _ _ [] 1 12 [])|]. cbn [app].
  eapply exec_cons; [apply st_out_rdv; reflexivity|]. cbn [app]. eapply exec_cons; [apply st_jobs_closed|].
  eapply exec_cons; [apply st_recv_none|]. apply exec_nil.
Qed.
Example C46_all_delivered_at := C46_all_delivered _ plus10 0 2 [1; 2] _ ltac:(lia) (plus10_ok _) ran_to_end ltac:(discriminate) (ended_stuck [11; 12]).

(* ---- C61: dropped at once, all the work is done nevertheless ---- *)
Lemma dropped_stuck : forall l s', l <> LDrop -> ~ step plus10 0 1 (mkState [] SDone 2 [] [] [] [] DDone [] CDropped [] false) l s'.
Proof. intros l s' D X. inversion X; subst; try congruence; match goal with H : _ ++ _ :: _ = [] |- _ => apply app_eq_nil in H; destruct H; discriminate end. Qed.
Lemma dropped : exists ls, exec plus10 0 1 (init [1; 2]) ls (mkState [] SDone 2 [] [] [] [] DDone [] CDropped [] false).
Proof.
  exists [LDrop; LTake; LSubmit; LTake; LStart 0; LFinish 0; LStart 1; LFinish 1; LResult; LOutput; LSubmit; LEnd; LResult; LOutput; LJobsClosed].
  unfold init. eapply exec_cons; [apply st_drop|]. eapply exec_cons; [apply st_take|]. eapply exec_cons; [apply st_submit_rdv; reflexivity|].
  eapply exec_cons; [apply st_take|]. cbn [app].
  eapply exec_cons; [apply (st_start _ _ _ _ _ _ [] 0 1 [(1, 2)]); cbn; lia|]. cbn [app].
  eapply exec_cons; [apply (st_finish _ _ _ _ _ _ _ [] 0 1 11 []); reflexivity|]. cbn [app].
  eapply exec_cons; [apply (st_start _ _ _ _ _ _ [] 1 2 []); cbn; lia|]. cbn [app].
  eapply exec_cons; [apply (st_finish _ _ _ _ _ _ _ [] 1 2 12 []); reflexivity|]. cbn [app].
  eapply exec_cons; [apply (st_result _ _ _ _ _ _ _ _ [(1, 12)] 0 11 [])|]. cbn [app].
  eapply exec_cons; [apply st_out_fail|]. eapply exec_cons; [apply st_submit_rdv; reflexivity|].
  eapply exec_cons; [apply st_end|]. eapply exec_cons; [apply (st_result _ _ _ _ _ _ _ _ [] 1 12 [])|]. cbn [app].
  eapply exec_cons; [apply st_out_fail|]. eapply exec_cons; [apply st_jobs_closed|]. apply exec_nil.
Qed.
Example C61_drop_does_not_stop_refuted_at := C61_drop_does_not_stop_refuted _ plus10 0 1 [1; 2] _ ltac:(lia) (plus10_ok _) dropped eq_refl dropped_stuck.
Example C61_everything_processed_at : exists ls, In (LFinish 0) ls /\ In (LFinish 1) ls /\
  exec plus10 0 1 (init [1; 2]) ls (mkState [] SDone 2 [] [] [] [] DDone [] CDropped [] false).
Proof.
  destruct dropped as [ls E]. exists ls.
  assert (X := C61_everything_processed _ plus10 0 1 [1; 2] ls _ ltac:(lia) (plus10_ok _) E dropped_stuck). split; [apply X; cbn; lia|]. split; [apply X; cbn; lia|exact E].
Qed.

(* ---- C67 ---- *)
Definition waiting : @state nat := mkState [2] SIdle 1 [] [] [] [] DIdle [] CActive [11] false.
Lemma wait_reached : reachable plus10 1 1 [1; 2] waiting.
Proof.
  exists [LTake; LSubmit; LStart 0; LFinish 0; LJob; LResult; LOutput; LRecv]. unfold init, waiting.
  eapply exec_cons; [apply st_take|]. cbn [app]. eapply exec_cons; [apply st_submit_buf; [unfold jobs_cap; cbn; lia|discriminate]|]. cbn [app].
  eapply exec_cons; [apply (st_start _ _ _ _ _ _ [] 0 1 []); cbn; lia|]. cbn [app].
  eapply exec_cons; [apply (st_finish _ _ _ _ _ _ _ [] 0 1 11 []); reflexivity|]. cbn [app].
  eapply exec_cons; [apply st_job|]. eapply exec_cons; [apply (st_result _ _ _ _ _ _ _ _ [] 0 11 [])|]. cbn [app].
  eapply exec_cons; [apply st_out_buf; [unfold out_cap; cbn; lia|discriminate]|]. cbn [app]. eapply exec_cons; [apply st_recv_some|]. apply exec_nil.
Qed.
Lemma wait_stuck : forall l s', step plus10 1 1 waiting l s' -> source_acts l \/ l = LDrop.
Proof.
  intros l s' X. inversion X; subst; try (left; left; reflexivity); try (right; reflexivity);
    match goal with H : _ ++ _ :: _ = [] |- _ => apply app_eq_nil in H; destruct H; discriminate end.
Qed.
Example C67_nothing_held_back_at := C67_nothing_held_back _ plus10 1 1 [1; 2] waiting ltac:(lia) (plus10_ok _) wait_reached ltac:(discriminate) wait_stuck.
Example C67_back_pressure_at := C67_back_pressure _ plus10 1 1 [1; 2] waiting wait_reached ltac:(discriminate).

(* ---- C76 ---- *)
Example C76_perform_calls_at := C76_perform_calls ok_codec 1 [RsVirtualFill 7; RsVirtualFill 3; RsCorrection false] [RsCorrection true; RsCorrection false; RsVirtualFill 3; RsDetection false] (repeat 5%N 252) eq_refl eq_refl eq_refl.
Definition px : list opt_call -> pipeline := fun calls => pipeline_with_rs (pipeline_new 55) (opts_of 1 calls).
(* the calls of the options change order and the irrelevant ones differ: the output is the same *)
Example C76_stage_at : exists out items frames, map (fun f => length (f_data f)) out = [23; 23; 55; 23] /\
  yields biter_next (synchronize (reader_of ex_stream) [26; 207; 252; 29]%N 55) items /\
  decoded_frames true (Some (opts_of 1 ox_calls)) (derandomize (oks items)) frames /\
  Forall2 (corrected_by ok_codec (rs_of 1 [RsVirtualFill 200; RsCorrection true])) frames out.
Proof.
  destruct C76_ex as (out & X & L). destruct (C76_stage_is_library _ _ _ _ _ _ _ _ X) as (items & frames & A & B & C).
  exists out, items, frames. split; [exact L|]. split; [exact A|]. split; [exact B|exact C].
Qed.
Example C76_same_output_at : exists out, pipeline_start true ok_codec 2 (px ox_calls) (reader_of ex_stream) out /\ out <> [] /\
  forall n calls out', calls = [BufferSize 1; VirtualFill 200; NumThreads 9] -> pipeline_start true ok_codec n (px calls) (reader_of ex_stream) out' -> out = out'.
Proof.
  destruct C76_ex as (out & X & L). exists out. split; [exact X|]. split; [intro E; subst; discriminate|]. intros n calls out' -> X'.
  exact (C76_same_output _ _ _ _ (pipeline_new 55) (reader_of ex_stream) 1 ox_calls [BufferSize 1; VirtualFill 200; NumThreads 9] _ _ eq_refl eq_refl X X').
Qed.
Example C76_in_flight_at := C76_in_flight ok_codec 2 1 [BufferSize 9; BufferSize 4] stage_frames (init stage_frames) (ex_intro _ [] (exec_nil _ _ _ _)) ltac:(discriminate).
