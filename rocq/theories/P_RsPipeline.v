(* Properties C45, C46: the Reed-Solomon stage under every schedule. [reachable job buf nthreads frames s]:
   s is reached by some interleaving of the steps of the submit thread, the workers, the dispatch
   thread and the consumer (M_RsPipeline.v). *)
From Verif Require Import Base L_Base M_Frame M_ReedSolomon M_RsPipeline S_ReedSolomon L_ReedSolomon P_ReedSolomon L_RsPipeline.
Open Scope nat_scope.

Lemma NoDup_app_l : forall A (a b : list A), NoDup (a ++ b) -> NoDup a.
Proof.
  induction a as [|x a IH]; intros b H; [constructor|]. inversion H as [|? ? H1 H2]; subst. constructor; [|eapply IH; exact H2].
  intro X. apply H1. apply in_or_app. left. exact X.
Qed.
(* ---- C45 ---- *)
(* what has been received is, in order, the processed first frames of the input *)
Theorem C45_in_order : forall F (job : F -> outcome F) buf nthreads frames s,
  reachable job buf nthreads frames s ->
  length (st_recv s) <= length frames /\
  forall i f', nth_error (st_recv s) i = Some f' -> exists f, nth_error frames i = Some f /\ job f = Val f'.
Proof.
  intros F job buf nthreads frames s R. destruct (inv_reachable _ _ _ _ _ R) as [d I]. assert (H := i_recv _ _ _ _ I).
  split.
  - apply Forall2_length in H. rewrite firstn_length in H. lia.
  - intros i f' E. assert (LI : i < length (st_recv s)) by (apply nth_error_Some; congruence).
    assert (G : forall (l l' : list F), Forall2 (fun f f' => job f = Val f') l l' -> forall i f', nth_error l' i = Some f' ->
                exists f, nth_error l i = Some f /\ job f = Val f').
    { induction 1 as [|x y l l' J _ IH]; intros [|j] g Eg; try discriminate; cbn in *; [injection Eg as <-; eauto|apply IH; exact Eg]. }
    destruct (G _ _ H i f' E) as (f & E1 & J). exists f. split; [|exact J].
    rewrite <- (firstn_skipn (length (st_recv s)) frames). rewrite nth_error_app1; [exact E1|]. apply nth_error_Some. congruence.
Qed.
Print Assumptions C45_in_order.
(* no frame is processed twice *)
Theorem C45_processed_once : forall F (job : F -> outcome F) buf nthreads frames ls s,
  exec job buf nthreads (init frames) ls s ->
  NoDup (flat_map (fun l => match l with LFinish id => [id] | _ => [] end) ls) /\
  forall id, In (LFinish id) ls -> id < length frames.
Proof.
  intros F job buf nthreads frames ls s E.
  assert (H0 : hist [] (init frames)) by (constructor; cbn; constructor).
  assert (H := hist_exec job buf nthreads _ _ _ E [] H0). cbn [app] in H. destruct H as [A B]. split.
  - unfold finished in A. eapply NoDup_app_l. exact A.
  - intros id I. destruct (inv_exec _ _ _ _ _ _ _ E 0 (inv_init job frames)) as [d J].
    apply Forall_app in B. destruct B as [B _]. rewrite Forall_forall in B. specialize (B id).
    assert (id < st_next s). { apply B. unfold finished. apply in_flat_map. exists (LFinish id). split; [exact I|left; reflexivity]. }
    assert (X := i_nx _ _ _ _ J). lia.
Qed.
Print Assumptions C45_processed_once.
(* the stage as configured by the library: headers and missing counts are untouched, fill frames entirely *)
Theorem C45_frames : forall k c buf nthreads frames s i f',
  reachable (rs_job k c) buf nthreads frames s -> nth_error (st_recv s) i = Some f' ->
  exists f, nth_error frames i = Some f /\ f_header f' = f_header f /\ f_missing f' = f_missing f /\
    (v_vcid (f_header f) = VCID_FILL -> f' = f) /\
    (v_vcid (f_header f) <> VCID_FILL -> exists integ data, perform k c (f_data f) = Val (Ok (integ, data)) /\
       f_integrity f' = Some integ /\
       f_data f' = match integ with IOk | ICorrected => data | _ => f_data f end).
Proof.
  intros k c buf nthreads frames s i f' R E. destruct (C45_in_order _ _ _ _ _ _ R) as [_ H]. destruct (H i f' E) as (f & E1 & J).
  exists f. split; [exact E1|]. destruct (C44_stage_keeps_data k c f f' J) as (A & B & C & _). repeat (split; [assumption|]).
  intro NF. unfold rs_job in J. destruct (N.eqb_spec (v_vcid (f_header f)) VCID_FILL); [contradiction|]. cbn [negb] in J.
  destruct (perform k c (f_data f)) as [[[integ data]|e]|]; try discriminate. cbn [obind] in J. injection J as <-.
  exists integ, data. split; [reflexivity|]. split; [reflexivity|]. destruct integ; reflexivity.
Qed.
Print Assumptions C45_frames.
(* a frame the algorithm rejects: neither it nor any later frame is ever delivered *)
Theorem C45_nothing_after_failure : forall F (job : F -> outcome F) buf nthreads frames s i f,
  reachable job buf nthreads frames s -> nth_error frames i = Some f -> job f = Panic -> length (st_recv s) <= i.
Proof.
  intros F job buf nthreads frames s i f R E J. destruct (C45_in_order _ _ _ _ _ _ R) as [_ H].
  destruct (Nat.le_gt_cases (length (st_recv s)) i) as [L|L]; [exact L|exfalso].
  destruct (nth_error (st_recv s) i) as [f'|] eqn:X; [|apply nth_error_None in X; lia].
  destruct (H i f' X) as (g & E2 & J2). rewrite E in E2. injection E2 as <-. congruence.
Qed.
Print Assumptions C45_nothing_after_failure.

(* ---- C46 ---- *)
Theorem C46_terminates : forall F (job : F -> outcome F) buf nthreads frames ls s,
  exec job buf nthreads (init frames) ls s -> length ls <= 8 * length frames + 4.
Proof.
  intros F job buf nthreads frames ls s E. apply weight_exec in E. rewrite weight_init in E. lia.
Qed.
Print Assumptions C46_terminates.
Theorem C46_no_deadlock : forall F (job : F -> outcome F) buf nthreads frames s,
  1 <= nthreads -> (forall f, In f frames -> job f <> Panic) -> reachable job buf nthreads frames s ->
  (exists l s', l <> LDrop /\ step job buf nthreads s l s') \/
  (* or everything has come to its end *)
  (st_submit s = SDone /\ st_dispatch s = DDone /\ st_pending s = [] /\ st_running s = [] /\
   (st_consumer s = CDropped \/
    st_consumer s = CEnded /\ length (st_recv s) = length frames)).
Proof.
  intros F job buf nthreads frames s HN HJ R. destruct (inv_reachable _ _ _ _ _ R) as [d I].
  assert (HA : st_aborted s = false).
  { destruct R as [ls E]. destruct (st_aborted s) eqn:A; [|reflexivity]. destruct (aborted_bad _ _ _ _ _ _ _ E 0 (inv_init job frames)) as (f & X & Y); [discriminate|exact A|].
    destruct (HJ f X Y). }
  destruct (progress job buf nthreads frames d s I HA HN HJ) as [P|P]; [left; exact P|right].
  destruct P as (S1 & D1 & J1 & P1 & R1 & _ & C1). repeat (split; [assumption|]). destruct (st_consumer s) eqn:C; [congruence| |left; reflexivity].
  right. split; [reflexivity|]. assert (X := complete job frames d s I S1 D1 J1 C). apply Forall2_length in X. congruence.
Qed.
Print Assumptions C46_no_deadlock.
(* nothing can happen any more, and the consumer did not leave: all frames were delivered and the iterator
   has ended. With C45_in_order these are the processed input frames in order. *)
Theorem C46_all_delivered : forall F (job : F -> outcome F) buf nthreads frames s,
  1 <= nthreads -> (forall f, In f frames -> job f <> Panic) -> reachable job buf nthreads frames s ->
  st_consumer s <> CDropped -> (forall l s', l <> LDrop -> ~ step job buf nthreads s l s') ->
  st_consumer s = CEnded /\ length (st_recv s) = length frames /\ map (fun f => Val f) (st_recv s) = map job frames.
Proof.
  intros F job buf nthreads frames s HN HJ R HC HS.
  destruct (C46_no_deadlock F job buf nthreads frames s HN HJ R) as [(l & s' & NL & ST)|(_ & _ & _ & _ & [C|[C L]])].
  - destruct (HS l s' NL ST).
  - contradiction.
  - split; [exact C|]. split; [exact L|]. destruct (C45_in_order _ _ _ _ _ _ R) as [_ H].
    apply nth_ext with (d := Panic) (d' := Panic); [rewrite !map_length; exact L|]. rewrite map_length. intros i Hi.
    destruct (nth_error (st_recv s) i) as [f'|] eqn:X; [|apply nth_error_None in X; lia].
    destruct (H i f' X) as (g & E & J).
    rewrite (nth_error_nth _ _ _ (map_nth_error (fun f => Val f) _ _ X)), (nth_error_nth _ _ _ (map_nth_error job _ _ E)). congruence.
Qed.
Print Assumptions C46_all_delivered.
(* and such an end is reached from everywhere *)
Theorem C46_can_finish : forall F (job : F -> outcome F) buf nthreads frames s,
  1 <= nthreads -> (forall f, In f frames -> job f <> Panic) -> reachable job buf nthreads frames s -> st_consumer s <> CDropped ->
  exists ls s', exec job buf nthreads s ls s' /\ ~ In LDrop ls /\
    st_consumer s' = CEnded /\ map (fun f => Val f) (st_recv s') = map job frames.
Proof.
  intros F job buf nthreads frames s HN HJ R HC. destruct (inv_reachable _ _ _ _ _ R) as [d I].
  assert (HA : st_aborted s = false).
  { destruct R as [ls E]. destruct (st_aborted s) eqn:A; [|reflexivity]. destruct (aborted_bad _ _ _ _ _ _ _ E 0 (inv_init job frames)) as (f & X & Y); [discriminate|exact A|].
    destruct (HJ f X Y). }
  destruct (run_to_end job buf nthreads frames _ d s (le_n _) I HA HC HN HJ) as (ls & s' & d' & E & I' & (S1 & D1 & J1 & _) & C & ND).
  exists ls, s'. repeat (split; [assumption|]). assert (X := complete job frames d' s' I' S1 D1 J1 C).
  clear -X. induction X as [|f f' l l' J _ IH]; [reflexivity|]. cbn [map]. rewrite IH, J. reflexivity.
Qed.
Print Assumptions C46_can_finish.

(* ---- a concrete run: two workers, the second frame finishes first, buffer size 0 ---- *)
Example C45_ex : exists s, reachable (fun n : nat => Val (n + 10)) 0 2 [1; 2] s /\ st_recv s = [11; 12] /\ st_consumer s = CEnded /\
  exists ls, exec (fun n : nat => Val (n + 10)) 0 2 (init [1; 2]) (LTake :: LSubmit :: LTake :: LStart 1 :: LStart 0 :: LFinish 1 :: LFinish 0 :: ls) s.
Proof.
  eexists. assert (E : exec (fun n : nat => Val (n + 10)) 0 2 (init [1; 2])
     [LTake; LSubmit; LTake; LStart 1; LStart 0; LFinish 1; LFinish 0; LResult; LOutput; LSubmit; LEnd; LResult; LOutput; LJobsClosed; LRecvNone]
     (mkState [] SDone 2 [] [] [] [] DDone [] CEnded [11; 12] false)).
  { unfold init. eapply exec_cons; [apply st_take|]. eapply exec_cons; [apply st_submit_rdv; reflexivity|].
    eapply exec_cons; [apply st_take|]. cbn [app].
    eapply exec_cons; [apply (st_start _ _ _ _ _ _ [(0, 1)] 1 2 []); cbn; lia|]. cbn [app].
    eapply exec_cons; [apply (st_start _ _ _ _ _ _ [] 0 1 []); cbn; lia|]. cbn [app].
    eapply exec_cons; [apply (st_finish _ _ _ _ _ _ _ [] 1 2 12 [(0, 1)]); reflexivity|]. cbn [app].
    eapply exec_cons; [apply (st_finish _ _ _ _ _ _ _ [] 0 1 11 []); reflexivity|]. cbn [app].
    eapply exec_cons; [apply (st_result _ _ _ _ _ _ _ _ [] 0 11 [(1, 12)])|]. cbn [app].
    eapply exec_cons; [apply st_out_rdv; reflexivity|]. eapply exec_cons; [apply st_submit_rdv; reflexivity|].
    eapply exec_cons; [apply st_end|]. eapply exec_cons; [apply (st_result _ _ _ _ _ _ _ _ [] 1 12 [])|]. cbn [app].
    eapply exec_cons; [apply st_out_rdv; reflexivity|]. eapply exec_cons; [apply st_jobs_closed|]. eapply exec_cons; [apply st_recv_none|]. cbn [app].
    apply exec_nil. }
  split; [eexists; exact E|]. split; [reflexivity|]. split; [reflexivity|]. eexists. exact E.
Qed.
