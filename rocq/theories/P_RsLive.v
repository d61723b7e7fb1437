(* Property C67: the Reed-Solomon stage on a live source: nothing is held back, and the look-ahead is bounded. *)
From Coq Require Import Permutation.
From Verif Require Import Base S_RsPipeline L_Base M_Frame M_ReedSolomon M_RsPipeline L_RsPipeline P_RsPipeline.
Open Scope nat_scope.


(* When nothing can happen without the source acting, everything taken from the source was delivered to the consumer:
   no frame waits for later frames. *)
Theorem C67_nothing_held_back : forall F (job : F -> outcome F) buf nthreads frames s,
  1 <= nthreads -> (forall f, In f frames -> job f <> Panic) -> reachable job buf nthreads frames s -> st_consumer s <> CDropped ->
  (forall l s', step job buf nthreads s l s' -> source_acts l \/ l = LDrop) ->
  length (st_recv s) = st_next s /\ map (fun f => Val f) (st_recv s) = map job (firstn (st_next s) frames).
Proof.
  intros F job buf nthreads frames s HN HJ R HC ST. assert (R' := R). destruct R as [ls E]. destruct (inv_reachable _ _ _ _ _ R') as [d I].
  assert (HA : st_aborted s = false).
  { destruct (st_aborted s) eqn:A; [|reflexivity]. destruct (aborted_bad _ _ _ _ _ _ _ E 0 (inv_init job frames)) as (f & X & Y); [discriminate|exact A|].
    destruct (HJ f X Y). }
  assert (NO : forall l s', l <> LTake -> l <> LEnd -> l <> LDrop -> ~ step job buf nthreads s l s').
  { intros l s' A B C X. destruct (ST l s' X) as [[Y|Y]|Y]; contradiction. }
  assert (KEY : d = st_next s /\ st_out s = []).
  { destruct (st_running s) as [|[id f] ru] eqn:RUN.
    2:{ exfalso. assert (IR := i_run _ _ _ _ I). rewrite RUN in IR. inversion IR as [|? ? P _]; subst. cbn in P. apply nth_error_In in P.
        specialize (HJ f P). destruct (job f) as [f'|] eqn:EJ; [|congruence]. destruct s; cbn in *; subst.
        eapply (NO (LFinish id)); [discriminate..|]. exact (st_finish job buf nthreads _ _ _ _ [] id f f' ru _ _ _ _ _ _ EJ). }
    destruct (st_pending s) as [|[id f] pe] eqn:PEND.
    2:{ exfalso. destruct s; cbn in *; subst. eapply (NO (LStart id)); [discriminate..|]. exact (st_start job buf nthreads _ _ _ [] id f pe [] _ _ _ _ _ _ HN). }
    assert (OUT : st_consumer s = CActive -> st_out s = []).
    { intro C. destruct (st_out s) as [|g ou] eqn:OU; [reflexivity|]. exfalso. destruct s; cbn in *; subst.
      eapply (NO LRecv); [discriminate..|]. exact (st_recv_some job buf nthreads _ _ _ _ _ _ _ _ g ou _). }
    destruct (st_dispatch s) as [|id|f|] eqn:DI.
    - destruct (st_jobs s) as [|id jo] eqn:JO.
      2:{ exfalso. destruct s; cbn in *; subst. eapply (NO LJob); [discriminate..|]. exact (st_job job buf nthreads _ _ _ _ _ _ id jo _ _ _). }
      assert (O := i_order _ _ _ _ I). rewrite DI, JO in O. cbn [cur_of app] in O.
      destruct (st_submit s) as [|id|] eqn:SU.
      + cbn in O. split.
        * assert (L := f_equal (@length _) O). rewrite seq_length in L. cbn in L. assert (X := i_d _ _ _ _ I). lia.
        * destruct (st_consumer s) eqn:C; [apply OUT; reflexivity|apply (i_ended _ _ _ _ I C)|congruence].
      + exfalso. destruct s; cbn in *; subst. destruct (Nat.eq_dec (jobs_cap buf) 0) as [Z|Z].
        * eapply (NO LSubmit); [discriminate..|]. exact (st_submit_rdv job buf nthreads _ id _ _ _ _ _ _ _ Z).
        * eapply (NO LSubmit); [discriminate..|]. exact (st_submit_buf job buf nthreads _ id _ _ _ _ [] DIdle _ _ _ ltac:(cbn; lia) ltac:(discriminate)).
      + exfalso. destruct s; cbn in *; subst. eapply (NO LJobsClosed); [discriminate..|]. exact (st_jobs_closed job buf nthreads _ _ _ _ _ _ _ _).
    - exfalso. destruct (find_waiting _ _ _ _ id I DI) as [[f X]|[[f X]|[f X]]]; [rewrite PEND in X; destruct X|rewrite RUN in X; destruct X|].
      apply in_split in X. destruct X as (r1 & r2 & X). destruct s; cbn in *; subst.
      eapply (NO LResult); [discriminate..|]. exact (st_result job buf nthreads _ _ _ _ _ r1 id f r2 _ _ _ _).
    - exfalso. destruct (st_consumer s) eqn:C; [|destruct (i_ended _ _ _ _ I C) as [X _]; congruence|congruence].
      assert (OU := OUT eq_refl). destruct s; cbn in *; subst. destruct (Nat.eq_dec (out_cap buf) 0) as [Z|Z].
      + eapply (NO LOutput); [discriminate..|]. exact (st_out_rdv job buf nthreads _ _ _ _ _ _ _ f _ Z).
      + eapply (NO LOutput); [discriminate..|]. exact (st_out_buf job buf nthreads _ _ _ _ _ _ _ f [] CActive _ ltac:(cbn; lia) ltac:(discriminate)).
    - destruct (i_ddone _ _ _ _ I DI) as [SU JO]. assert (O := i_order _ _ _ _ I). rewrite DI, JO, SU in O. cbn in O. split.
      + assert (L := f_equal (@length _) O). rewrite seq_length in L. cbn in L. assert (X := i_d _ _ _ _ I). lia.
      + destruct (st_consumer s) eqn:C; [apply OUT; reflexivity|apply (i_ended _ _ _ _ I C)|congruence]. }
  destruct KEY as [KD KO]. assert (IO := i_out _ _ _ _ I HC). rewrite KO, app_nil_r, KD in IO. split.
  - apply Forall2_length in IO. rewrite firstn_length in IO. assert (X := i_nx _ _ _ _ I). lia.
  - clear -IO. induction IO as [|f f' l l' J _ IH]; [reflexivity|]. cbn [map]. rewrite IH, J. reflexivity.
Qed.
Print Assumptions C67_nothing_held_back.

Record caps {F} (buf : nat) (s : @state F) : Prop := mkCaps { c_jobs : length (st_jobs s) <= 2 * buf; c_out : length (st_out s) <= buf }.
Lemma caps_step : forall F (job : F -> outcome F) buf nthreads s l s', caps buf s -> step job buf nthreads s l s' -> caps buf s'.
Proof.
  intros F job buf nthreads s l s' [A B] ST. destruct ST; constructor; cbn [st_jobs st_out length] in *; rewrite ?app_length; cbn [length]; unfold jobs_cap, out_cap in *; lia.
Qed.
(* Back pressure: however slow the consumer is, at most 3 * buffer size + 2 frames were taken from the source that it
   has not received yet. *)
Theorem C67_back_pressure : forall F (job : F -> outcome F) buf nthreads frames s,
  reachable job buf nthreads frames s -> st_consumer s <> CDropped ->
  st_next s <= length (st_recv s) + 3 * buf + 2 /\ st_input s = skipn (st_next s) frames.
Proof.
  intros F job buf nthreads frames s R HC. assert (R' := R). destruct R as [ls E]. destruct (inv_reachable _ _ _ _ _ R') as [d I].
  assert (C : caps buf s).
  { assert (G : forall s0 ls0 s1, exec job buf nthreads s0 ls0 s1 -> caps buf s0 -> caps buf s1).
    { induction 1 as [|s0 l s1 ls0 s2 X _ IH]; [tauto|]. intro. apply IH. eapply caps_step; eassumption. }
    eapply G; [exact E|]. constructor; cbn; lia. }
  split; [|exact (i_input _ _ _ _ I)].
  assert (O := f_equal (@length _) (i_order _ _ _ _ I)). rewrite !app_length, seq_length in O.
  assert (IO := Forall2_length _ _ _ _ _ (i_out _ _ _ _ I HC)). rewrite firstn_length, app_length in IO.
  destruct C as [C1 C2]. assert (X := i_d _ _ _ _ I). assert (Y := i_nx _ _ _ _ I).
  assert (L1 : length (cur_of (st_dispatch s) d) <= 1) by (destruct (st_dispatch s); cbn; lia).
  assert (L2 : length (sub_of (st_submit s)) <= 1) by (destruct (st_submit s); cbn; lia). lia.
Qed.
Print Assumptions C67_back_pressure.
(* the bound is reached *)
Example C67_ex : exists ls s, exec (fun n : nat => Val (n + 10)) 0 1 (init [1; 2; 3]) ls s /\ st_consumer s = CActive /\ st_recv s = [] /\ st_next s = 2.
Proof.
  exists [LTake; LSubmit; LTake]. eexists. split.
  - unfold init. eapply exec_cons; [apply st_take|]. eapply exec_cons; [apply st_submit_rdv; reflexivity|].
    eapply exec_cons; [apply st_take|]. apply exec_nil.
  - repeat split; reflexivity.
Qed.
(* a stage that waits for the source, having delivered what it got *)
Example C67_ex_waiting : exists ls s, exec (fun n : nat => Val (n + 10)) 1 1 (init [1; 2]) ls s /\ st_recv s = [11] /\ st_input s = [2] /\
  forall l s', step (fun n : nat => Val (n + 10)) 1 1 s l s' -> source_acts l \/ l = LDrop.
Proof.
  exists [LTake; LSubmit; LStart 0; LFinish 0; LJob; LResult; LOutput; LRecv]. eexists. split.
  - unfold init. eapply exec_cons; [apply st_take|]. cbn [app]. eapply exec_cons; [apply st_submit_buf; [unfold jobs_cap; cbn; lia|discriminate]|]. cbn [app].
    eapply exec_cons; [apply (st_start _ _ _ _ _ _ [] 0 1 []); cbn; lia|]. cbn [app].
    eapply exec_cons; [apply (st_finish _ _ _ _ _ _ _ [] 0 1 11 []); reflexivity|]. cbn [app].
    eapply exec_cons; [apply st_job|]. eapply exec_cons; [apply (st_result _ _ _ _ _ _ _ _ [] 0 11 [])|]. cbn [app].
    eapply exec_cons; [apply st_out_buf; [unfold out_cap; cbn; lia|discriminate]|]. cbn [app]. eapply exec_cons; [apply st_recv_some|]. apply exec_nil.
  - split; [reflexivity|]. split; [reflexivity|]. intros l s' X. inversion X; subst; try (left; left; reflexivity); try (right; reflexivity);
      match goal with H : _ ++ _ :: _ = [] |- _ => apply app_eq_nil in H; destruct H; discriminate end.
Qed.
