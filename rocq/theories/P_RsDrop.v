(* Property C61: the consumer of the Reed-Solomon stage drops the iterator before its end. *)
From Coq Require Import Permutation.
From Verif Require Import Base L_Base M_Frame M_ReedSolomon M_RsPipeline L_RsPipeline P_RsPipeline.
Open Scope nat_scope.

(* The threads do end, under every schedule, but not before the whole input was taken and processed: dropping
   the iterator does not stop the work. *)
Theorem C61_drop_does_not_stop_refuted : forall F (job : F -> outcome F) buf nthreads frames s,
  1 <= nthreads -> (forall f, In f frames -> job f <> Panic) -> reachable job buf nthreads frames s ->
  st_consumer s = CDropped -> (forall l s', l <> LDrop -> ~ step job buf nthreads s l s') ->
  st_submit s = SDone /\ st_dispatch s = DDone /\ st_input s = [] /\
  st_pending s = [] /\ st_running s = [] /\ st_results s = [] /\ st_next s = length frames.
Proof.
  intros F job buf nthreads frames s HN HJ R CD ST.
  destruct (C46_no_deadlock _ _ _ _ _ _ HN HJ R) as [(l & s' & NL & X)|(S1 & D1 & P1 & R1 & _)]; [destruct (ST l s' NL X)|].
  destruct (inv_reachable _ _ _ _ _ R) as [d I]. assert (IN := i_sdone _ _ _ _ I S1).
  repeat (split; [assumption|]). split.
  - assert (PL := i_place _ _ _ _ I). destruct (i_ddone _ _ _ _ I D1) as [_ J1]. rewrite P1, R1, D1, J1, S1 in PL. cbn in PL.
    apply Permutation_sym, Permutation_nil in PL. destruct (st_results s); [reflexivity|discriminate].
  - assert (X := i_input _ _ _ _ I). rewrite IN in X. assert (Y := i_nx _ _ _ _ I).
    assert (Z := skipn_length (st_next s) frames). rewrite <- X in Z. cbn in Z. lia.
Qed.
Print Assumptions C61_drop_does_not_stop_refuted.
(* each frame is processed, whatever the consumer does: when nothing more can happen, the jobs finished are all of them *)
Theorem C61_everything_processed : forall F (job : F -> outcome F) buf nthreads frames ls s,
  1 <= nthreads -> (forall f, In f frames -> job f <> Panic) -> exec job buf nthreads (init frames) ls s ->
  (forall l s', l <> LDrop -> ~ step job buf nthreads s l s') ->
  forall id, id < length frames -> In (LFinish id) ls.
Proof.
  intros F job buf nthreads frames ls s HN HJ E ST id L.
  assert (R : reachable job buf nthreads frames s) by (exists ls; exact E).
  (* where a frame that was taken is *)
  assert (G : forall s0 ls0 s1, exec job buf nthreads s0 ls0 s1 ->
    (id < st_next s1 -> ~ In (LFinish id) ls0 -> id < st_next s0 -> In id (map fst (st_pending s0)) \/ In id (map fst (st_running s0)) ->
      In id (map fst (st_pending s1)) \/ In id (map fst (st_running s1))) /\
    (st_next s0 <= id -> id < st_next s1 -> ~ In (LFinish id) ls0 -> In id (map fst (st_pending s1)) \/ In id (map fst (st_running s1)))).
  { induction 1 as [s0|s0 l s1 ls0 s2 X _ IH]; [split; [tauto|lia]|]. destruct IH as [IH1 IH2].
    assert (K : l <> LFinish id -> In id (map fst (st_pending s0)) \/ In id (map fst (st_running s0)) ->
                In id (map fst (st_pending s1)) \/ In id (map fst (st_running s1))).
    { clear -X. intros NL. inversion X; subst; cbn [st_pending st_running]; rewrite ?map_app; cbn [map fst]; rewrite ?in_app_iff; cbn [In]; try tauto.
      intro Q; decompose [or] Q; try tauto; subst; destruct NL; reflexivity. }
    assert (NX : st_next s1 = st_next s0 \/ st_next s1 = S (st_next s0) /\ In (st_next s0) (map fst (st_pending s1))).
    { clear -X. inversion X; subst; cbn [st_pending st_running st_next]; try tauto. right. split; [reflexivity|]. rewrite map_app, in_app_iff. right. left. reflexivity. }
    split.
    - intros A B C D. apply IH1; try assumption; [intro; apply B; right; assumption|destruct NX as [->|[-> _]]; lia|].
      apply K; [intros ->; apply B; left; reflexivity|exact D].
    - intros A B C. destruct (Nat.lt_ge_cases id (st_next s1)) as [D|D].
      + destruct NX as [Q|[Q IP]]; [lia|]. assert (id = st_next s0) by lia. subst id.
        apply IH1; [exact B|intro; apply C; right; assumption|exact D|left; exact IP].
      + apply IH2; [exact D|exact B|intro; apply C; right; assumption]. }
  destruct (G _ _ _ E) as [_ H]. cbn [init st_next] in H.
  destruct (in_dec Nat.eq_dec id (flat_map (fun l => match l with LFinish i => [i] | _ => [] end) ls)) as [Y|Y].
  { apply in_flat_map in Y. destruct Y as (l & I & J). destruct l; try destruct J as [<-|[]]; try destruct J. exact I. }
  exfalso. assert (Q : ~ In (LFinish id) ls). { intro C. apply Y. apply in_flat_map. exists (LFinish id). split; [exact C|left; reflexivity]. }
  assert (NP : st_pending s = [] /\ st_running s = [] /\ st_submit s = SDone).
  { destruct (C46_no_deadlock _ _ _ _ _ _ HN HJ R) as [(l & s' & NL & X)|(S1 & D1 & P1 & R1 & _)]; [destruct (ST l s' NL X)|auto]. }
  destruct NP as (P1 & R1 & S1). destruct (inv_reachable _ _ _ _ _ R) as [d I].
  assert (NX : st_next s = length frames).
  { assert (IN := i_sdone _ _ _ _ I S1). assert (X := i_input _ _ _ _ I). rewrite IN in X. assert (Y1 := i_nx _ _ _ _ I).
    assert (Z := skipn_length (st_next s) frames). rewrite <- X in Z. cbn in Z. lia. }
  rewrite P1, R1, NX in H. destruct (H (Nat.le_0_l _) L Q) as [[]|[]].
Qed.
Print Assumptions C61_everything_processed.

(* the consumer drops the iterator at once; both frames are processed, none is received *)
Example C61_ex : exists s, exec (fun n : nat => Val (n + 10)) 0 1 (init [1; 2])
     [LDrop; LTake; LSubmit; LTake; LStart 0; LFinish 0; LStart 1; LFinish 1; LResult; LOutput; LSubmit; LEnd; LResult; LOutput; LJobsClosed] s /\
  st_consumer s = CDropped /\ st_recv s = [] /\ st_input s = [].
Proof.
  eexists. split.
  - unfold init. eapply exec_cons; [apply st_drop|]. eapply exec_cons; [apply st_take|]. eapply exec_cons; [apply st_submit_rdv; reflexivity|].
    eapply exec_cons; [apply st_take|]. cbn [app].
    eapply exec_cons; [apply (st_start _ _ _ _ _ _ [] 0 1 [(1, 2)]); cbn; lia|]. cbn [app].
    eapply exec_cons; [apply (st_finish _ _ _ _ _ _ _ [] 0 1 11 []); reflexivity|]. cbn [app].
    eapply exec_cons; [apply (st_start _ _ _ _ _ _ [] 1 2 []); cbn; lia|]. cbn [app].
    eapply exec_cons; [apply (st_finish _ _ _ _ _ _ _ [] 1 2 12 []); reflexivity|]. cbn [app].
    eapply exec_cons; [apply (st_result _ _ _ _ _ _ _ _ [(1, 12)] 0 11 [])|]. cbn [app].
    eapply exec_cons; [apply st_out_fail|]. eapply exec_cons; [apply st_submit_rdv; reflexivity|].
    eapply exec_cons; [apply st_end|]. eapply exec_cons; [apply (st_result _ _ _ _ _ _ _ _ [] 1 12 [])|]. cbn [app].
    eapply exec_cons; [apply st_out_fail|]. eapply exec_cons; [apply st_jobs_closed|]. apply exec_nil.
  - repeat split; reflexivity.
Qed.
