From Verif Require Import Base L_Base M_RsPipeline.
From Coq Require Import Permutation.
Open Scope nat_scope.

Section Inv.
Context {F : Type}.
Variable job : F -> outcome F.
Variable buf nthreads : nat.
Variable frames : list F.
Notation state := (@state F).
Notation step := (step job buf nthreads).

Definition cur_of (di : @dispatch_pc F) (d : nat) : list nat :=
  match di with DIdle | DDone => [] | DWait id => [id] | DSend _ => [d] end.
Definition wait_of (di : @dispatch_pc F) : list nat := match di with DWait id => [id] | _ => [] end.
Definition sub_of (su : submit_pc) : list nat := match su with SSend id => [id] | _ => [] end.
Definition done_by (ids : nat) (f' : F) : Prop := exists f, nth_error frames ids = Some f /\ job f = Val f'.

(* d: the number of frames the dispatch thread has sent *)
Record inv (d : nat) (s : state) : Prop := mkInv {
  i_nx : st_next s <= length frames;
  i_input : st_input s = skipn (st_next s) frames;
  i_order : cur_of (st_dispatch s) d ++ st_jobs s ++ sub_of (st_submit s) = seq d (st_next s - d);
  i_d : d <= st_next s;
  i_place : Permutation (map fst (st_pending s) ++ map fst (st_running s) ++ map fst (st_results s))
                        (wait_of (st_dispatch s) ++ st_jobs s ++ sub_of (st_submit s));
  i_pend : Forall (fun x => nth_error frames (fst x) = Some (snd x)) (st_pending s);
  i_run : Forall (fun x => nth_error frames (fst x) = Some (snd x)) (st_running s);
  i_res : Forall (fun x => done_by (fst x) (snd x)) (st_results s);
  i_send : match st_dispatch s with DSend f => done_by d f | _ => True end;
  i_ddone : st_dispatch s = DDone -> st_submit s = SDone /\ st_jobs s = [];
  i_sdone : st_submit s = SDone -> st_input s = [];
  i_ended : st_consumer s = CEnded -> st_dispatch s = DDone /\ st_out s = [];
  i_out : st_consumer s <> CDropped -> Forall2 (fun f f' => job f = Val f') (firstn d frames) (st_recv s ++ st_out s);
  i_recv : Forall2 (fun f f' => job f = Val f') (firstn (length (st_recv s)) frames) (st_recv s);
  i_dropout : st_consumer s = CDropped -> st_out s = [] }.

Lemma inv_init : inv 0 (init frames).
Proof.
  constructor; cbn; auto; try lia; try discriminate; intros; apply Forall2_nil.
Qed.

Lemma Forall2_length : forall (A B : Type) (R : A -> B -> Prop) l l', Forall2 R l l' -> length l = length l'.
Proof. induction 1; cbn; congruence. Qed.
Lemma Forall2_firstn : forall (A B : Type) (R : A -> B -> Prop) l l' n, Forall2 R l l' -> Forall2 R (firstn n l) (firstn n l').
Proof. intros A B R l l' n H. revert n. induction H; intros [|n]; cbn; constructor; auto. Qed.
Lemma firstn_snoc' : forall (l : list F) n (f : F), nth_error l n = Some f -> firstn (S n) l = firstn n l ++ [f].
Proof.
  induction l as [|x l IH]; intros [|n] f H; try discriminate; cbn [nth_error] in H.
  - injection H as ->. reflexivity.
  - cbn [app]. change (x :: firstn (S n) l = x :: (firstn n l ++ [f])). f_equal. apply IH. exact H.
Qed.
Definition firstn_snoc := firstn_snoc' frames.
Lemma prefix_recv : forall d rc ou, Forall2 (fun f f' => job f = Val f') (firstn d frames) (rc ++ ou) ->
  Forall2 (fun f f' => job f = Val f') (firstn (length rc) frames) rc.
Proof.
  intros d rc ou H. assert (L := Forall2_length _ _ _ _ _ H). rewrite app_length, firstn_length in L.
  apply (Forall2_firstn _ _ _ _ _ (length rc)) in H. rewrite firstn_app, Nat.sub_diag, firstn_O, app_nil_r, firstn_all, firstn_firstn in H.
  replace (Nat.min (length rc) d) with (length rc) in H by lia. exact H.
Qed.
Lemma snoc_out : forall d f l, Forall2 (fun f f' => job f = Val f') (firstn d frames) l -> done_by d f ->
  Forall2 (fun f f' => job f = Val f') (firstn (S d) frames) (l ++ [f]).
Proof. intros d f l H (g & E & J). rewrite (firstn_snoc d g E). apply Forall2_app; [exact H|constructor; [exact J|constructor]]. Qed.

Lemma seq_hd : forall x l d n, x :: l = seq d n -> x = d /\ l = seq (S d) (n - 1) /\ 0 < n.
Proof. intros x l d [|n] H; [discriminate|]. injection H as -> ->. rewrite Nat.sub_1_r. cbn. split; [reflexivity|]. split; [reflexivity|lia]. Qed.

(* how the number of frames sent changes *)
Definition next_d (l : label) (d : nat) : nat := match l with LOutput => S d | _ => d end.

Lemma inv_step : forall d s l s', inv d s -> step s l s' -> inv (next_d l d) s'.
Proof.
  intros d s l s' I H.
  destruct H; destruct I as [Inx Iin Iord Id Ipl Ipe Iru Ire Ise Idd Isd Ien Iou Irc Idr];
    cbn [st_input st_submit st_next st_pending st_running st_results st_jobs st_dispatch st_out st_consumer st_recv st_aborted next_d cur_of wait_of sub_of] in *.
  - (* take *)
    assert (NT : nth_error frames nx = Some f).
    { rewrite <- (firstn_skipn nx frames), <- Iin. rewrite nth_error_app2 by (rewrite firstn_length; lia).
      rewrite firstn_length. replace (nx - Nat.min nx (length frames)) with 0 by lia. reflexivity. }
    assert (LT : nx < length frames) by (apply nth_error_Some; congruence).
    constructor; cbn [st_input st_submit st_next st_pending st_running st_results st_jobs st_dispatch st_out st_consumer st_recv st_aborted cur_of wait_of sub_of]; try assumption; try lia.
    + change (S nx) with (1 + nx). rewrite <- skipn_skipn, <- Iin. reflexivity.
    + rewrite app_nil_r in Iord. rewrite app_assoc, Iord. replace (S nx - d) with ((nx - d) + 1) by lia. rewrite seq_app. cbn [seq]. do 2 f_equal. lia.
    + rewrite map_app, <- app_assoc. cbn [map fst]. rewrite app_nil_r in Ipl.
      rewrite (app_assoc (wait_of di)). rewrite Permutation_app_comm. rewrite <- app_assoc. cbn [app].
      apply Permutation_trans with (nx :: (wait_of di ++ jo)).
      * constructor. rewrite Permutation_app_comm. exact Ipl.
      * apply Permutation_cons_append.
    + apply Forall_app. split; [exact Ipe|]. constructor; [exact NT|constructor].
    + intro X. destruct (Idd X). discriminate.
    + discriminate.
  - (* end *)
    constructor; cbn [st_input st_submit st_next st_pending st_running st_results st_jobs st_dispatch st_out st_consumer st_recv st_aborted cur_of wait_of sub_of]; try assumption; try lia; auto.
    intro X. destruct (Idd X). discriminate.
  - (* submit_buf *)
    constructor; cbn [st_input st_submit st_next st_pending st_running st_results st_jobs st_dispatch st_out st_consumer st_recv st_aborted cur_of wait_of sub_of]; try assumption; try lia; try discriminate; try (intros; contradiction).
    + rewrite app_nil_r. exact Iord.
    + rewrite app_nil_r. exact Ipl.
  - (* submit_rdv *)
    constructor; cbn [st_input st_submit st_next st_pending st_running st_results st_jobs st_dispatch st_out st_consumer st_recv st_aborted cur_of wait_of sub_of]; try assumption; try lia; try discriminate; auto.
    intro X. destruct (Ien X). discriminate.
  - (* submit_fail *) destruct (Idd eq_refl). discriminate.
  - (* start *)
    constructor; cbn [st_input st_submit st_next st_pending st_running st_results st_jobs st_dispatch st_out st_consumer st_recv st_aborted cur_of wait_of sub_of]; try assumption; try lia.
    + eapply Permutation_trans; [|exact Ipl]. rewrite !map_app, <- !app_assoc. cbn [map fst app]. apply Permutation_app_head.
      change (id :: map fst p2 ++ map fst ru ++ map fst re) with ([id] ++ (map fst p2 ++ map fst ru ++ map fst re)).
      change (id :: map fst re) with ([id] ++ map fst re). rewrite !app_assoc. apply Permutation_app_tail.
      rewrite <- (app_assoc [id]). apply Permutation_app_comm.
    + apply Forall_app in Ipe. destruct Ipe as [P1 P2]. inversion P2; subst. apply Forall_app. auto.
    + apply Forall_app in Ipe. destruct Ipe as [P1 P2]. inversion P2; subst. apply Forall_app. auto.
  - (* finish *)
    apply Forall_app in Iru. destruct Iru as [P1 P2]. inversion P2 as [|? ? P3 P4]; subst. cbn [fst snd] in P3.
    constructor; cbn [st_input st_submit st_next st_pending st_running st_results st_jobs st_dispatch st_out st_consumer st_recv st_aborted cur_of wait_of sub_of]; try assumption; try lia; try reflexivity.
    + eapply Permutation_trans; [|exact Ipl]. rewrite !map_app. cbn [map fst]. apply Permutation_app_head. rewrite <- !app_assoc. cbn [app].
      apply Permutation_app_head. symmetry. apply Permutation_middle.
    + apply Forall_app. auto.
    + constructor; [exists f; auto|assumption].
  - (* abort *)
    constructor; cbn [st_input st_submit st_next st_pending st_running st_results st_jobs st_dispatch st_out st_consumer st_recv st_aborted cur_of wait_of sub_of]; try assumption; try lia.
  - (* job *)
    constructor; cbn [st_input st_submit st_next st_pending st_running st_results st_jobs st_dispatch st_out st_consumer st_recv st_aborted cur_of wait_of sub_of]; try assumption; try lia; try discriminate.
    intro X. destruct (Ien X). discriminate.
  - (* closed *)
    constructor; cbn [st_input st_submit st_next st_pending st_running st_results st_jobs st_dispatch st_out st_consumer st_recv st_aborted cur_of wait_of sub_of]; try assumption; try lia; auto.
    intro X. destruct (Ien X). discriminate.
  - (* result *)
    apply Forall_app in Ire. destruct Ire as [P1 P2]. inversion P2 as [|? ? P3 P4]; subst. cbn [fst snd] in P3.
    assert (ED : id = d) by (cbn [app] in Iord; apply seq_hd in Iord; tauto). subst id.
    constructor; cbn [st_input st_submit st_next st_pending st_running st_results st_jobs st_dispatch st_out st_consumer st_recv st_aborted cur_of wait_of sub_of]; try assumption; try lia; try reflexivity; try discriminate.
    + cbn [app] in Ipl |- *. apply Permutation_cons_inv with (a := d). eapply Permutation_trans; [|exact Ipl]. rewrite !map_app. cbn [map fst].
      rewrite !app_assoc. apply Permutation_middle.
    + apply Forall_app. auto.
    + intro X. destruct (Ien X). discriminate.
  - (* out_buf *)
    cbn [app] in Iord. apply seq_hd in Iord. destruct Iord as (_ & Iord & Hlt).
    constructor; cbn [st_input st_submit st_next st_pending st_running st_results st_jobs st_dispatch st_out st_consumer st_recv st_aborted cur_of wait_of sub_of]; try assumption; try lia; try discriminate.
    + cbn [app]. rewrite Iord. f_equal. lia.
    + intro X. destruct (Ien X). discriminate.
    + intro X. rewrite app_assoc. apply snoc_out; auto.
    + contradiction.
  - (* out_rdv *)
    cbn [app] in Iord. apply seq_hd in Iord. destruct Iord as (_ & Iord & Hlt).
    assert (N1 : Forall2 (fun f f' => job f = Val f') (firstn (S d) frames) ((rc ++ [f]) ++ [])).
    { rewrite app_nil_r. apply snoc_out; [|exact Ise]. specialize (Iou ltac:(discriminate)). rewrite app_nil_r in Iou. exact Iou. }
    constructor; cbn [st_input st_submit st_next st_pending st_running st_results st_jobs st_dispatch st_out st_consumer st_recv st_aborted cur_of wait_of sub_of]; try assumption; try lia; try discriminate; auto.
    + cbn [app]. rewrite Iord. f_equal. lia.
    + eapply prefix_recv. exact N1.
  - (* out_fail *)
    cbn [app] in Iord. apply seq_hd in Iord. destruct Iord as (_ & Iord & Hlt).
    constructor; cbn [st_input st_submit st_next st_pending st_running st_results st_jobs st_dispatch st_out st_consumer st_recv st_aborted cur_of wait_of sub_of]; try assumption; try lia; try discriminate; try contradiction; auto.
    + cbn [app]. rewrite Iord. f_equal. lia.
  - (* recv *)
    assert (N1 : Forall2 (fun f f' => job f = Val f') (firstn d frames) ((rc ++ [f]) ++ ou)).
    { specialize (Iou ltac:(discriminate)). rewrite <- app_assoc. exact Iou. }
    constructor; cbn [st_input st_submit st_next st_pending st_running st_results st_jobs st_dispatch st_out st_consumer st_recv st_aborted cur_of wait_of sub_of]; try assumption; try lia; try discriminate; auto.
    eapply prefix_recv. exact N1.
  - (* none *)
    constructor; cbn [st_input st_submit st_next st_pending st_running st_results st_jobs st_dispatch st_out st_consumer st_recv st_aborted cur_of wait_of sub_of]; try assumption; try lia; try discriminate; auto.
    intros _. apply Iou. discriminate.
  - (* drop *)
    constructor; cbn [st_input st_submit st_next st_pending st_running st_results st_jobs st_dispatch st_out st_consumer st_recv st_aborted cur_of wait_of sub_of]; try assumption; try lia; try discriminate; auto.
    contradiction.
Qed.

Lemma inv_exec : forall s ls s', exec job buf nthreads s ls s' -> forall d, inv d s -> exists d', inv d' s'.
Proof.
  induction 1 as [s|s l s1 ls s2 ST EX IH]; intros d I; [exists d; exact I|]. apply (IH (next_d l d)). eapply inv_step; eassumption.
Qed.
Lemma inv_reachable : forall s, reachable job buf nthreads frames s -> exists d, inv d s.
Proof. intros s [ls E]. exact (inv_exec _ _ _ E 0 inv_init). Qed.

(* ---- termination ---- *)
Definition w_submit (x : submit_pc) : nat := match x with SIdle => 1 | SSend _ => 5 | SDone => 0 end.
Definition w_dispatch (x : @dispatch_pc F) : nat := match x with DIdle => 1 | DWait _ => 3 | DSend _ => 3 | DDone => 0 end.
Definition weight (s : state) : nat :=
  8 * length (st_input s) + w_submit (st_submit s) + 3 * length (st_pending s) + 2 * length (st_running s) +
  length (st_results s) + 3 * length (st_jobs s) + w_dispatch (st_dispatch s) + length (st_out s) +
  (match st_consumer s with CActive => 1 | _ => 0 end) + (if st_aborted s then 0 else 1).
Lemma weight_step : forall s l s', step s l s' -> weight s' < weight s.
Proof.
  intros s l s' H. destruct H; unfold weight; cbn [st_input st_submit st_next st_pending st_running st_results st_jobs st_dispatch st_out st_consumer st_recv st_aborted w_submit w_dispatch];
    rewrite ?app_length; cbn [length]; try lia.
Qed.
Lemma weight_exec : forall s ls s', exec job buf nthreads s ls s' -> length ls + weight s' <= weight s.
Proof. induction 1 as [s|s l s1 ls s2 ST EX IH]; [cbn; lia|]. apply weight_step in ST. cbn [length]. lia. Qed.
Lemma weight_init : weight (init frames) = 8 * length frames + 4.
Proof. unfold weight, init. cbn. lia. Qed.

(* ---- progress ---- *)
Lemma find_waiting : forall d s id, inv d s -> st_dispatch s = DWait id ->
  (exists f, In (id, f) (st_pending s)) \/ (exists f, In (id, f) (st_running s)) \/ (exists f, In (id, f) (st_results s)).
Proof.
  intros d s id I E. destruct I as [_ _ _ _ Ipl _ _ _ _ _ _ _ _ _ _]. rewrite E in Ipl. cbn [wait_of app] in Ipl.
  assert (X : In id (map fst (st_pending s) ++ map fst (st_running s) ++ map fst (st_results s))).
  { eapply Permutation_in; [symmetry; exact Ipl|]. left. reflexivity. }
  assert (G : forall l : list (nat * F), In id (map fst l) -> exists f, In (id, f) l).
  { intros l H. apply in_map_iff in H. destruct H as ([x f] & Ex & H). cbn in Ex. subst x. eauto. }
  apply in_app_or in X. destruct X as [X|X]; [left; apply G; exact X|]. apply in_app_or in X.
  destruct X as [X|X]; [right; left; apply G; exact X|right; right; apply G; exact X].
Qed.

Definition stuck (s : state) : Prop := forall l s', step s l s' -> l = LDrop.
Definition settled (s : state) : Prop :=
  st_submit s = SDone /\ st_dispatch s = DDone /\ st_jobs s = [] /\ st_pending s = [] /\ st_running s = [] /\ st_results s = [] /\
  st_consumer s <> CActive.

Lemma progress : forall d s, inv d s -> st_aborted s = false -> 1 <= nthreads -> (forall f, In f frames -> job f <> Panic) ->
  (exists l s', l <> LDrop /\ step s l s') \/ settled s.
Proof.
  intros d s I HA HN HJ.
  destruct (st_running s) as [|[id f] ru] eqn:RUN.
  2:{ left. assert (IR := i_run d s I). rewrite RUN in IR. inversion IR as [|? ? P _]; subst. cbn in P. apply nth_error_In in P.
      specialize (HJ f P). destruct (job f) as [f'|] eqn:EJ; [|congruence]. destruct s; cbn in *; subst.
      exists (LFinish id). eexists. split; [discriminate|]. exact (st_finish job buf nthreads _ _ _ _ [] id f f' ru _ _ _ _ _ _ EJ). }
  destruct (st_pending s) as [|[id f] pe] eqn:PEND.
  2:{ left. destruct s; cbn in *; subst. exists (LStart id). eexists. split; [discriminate|].
      exact (st_start job buf nthreads _ _ _ [] id f pe [] _ _ _ _ _ _ HN). }
  destruct (st_dispatch s) as [|id|f|] eqn:DI.
  - (* idle *)
    destruct (st_jobs s) as [|id jo] eqn:JO.
    2:{ left. destruct s; cbn in *; subst. exists LJob. eexists. split; [discriminate|]. exact (st_job job buf nthreads _ _ _ _ _ _ id jo _ _ _). }
    left. destruct (st_submit s) as [|id|] eqn:SU; destruct s; cbn in *; subst.
    + destruct st_input as [|f fs].
      * exists LEnd. eexists. split; [discriminate|]. exact (st_end job buf nthreads _ _ _ _ _ _ _ _ _).
      * exists LTake. eexists. split; [discriminate|]. exact (st_take job buf nthreads f fs _ _ _ _ _ _ _ _ _).
    + exists LSubmit. destruct (Nat.eq_dec (jobs_cap buf) 0) as [Z|Z]; eexists; (split; [discriminate|]).
      * exact (st_submit_rdv job buf nthreads _ id _ _ _ _ _ _ _ Z).
      * exact (st_submit_buf job buf nthreads _ id _ _ _ _ [] DIdle _ _ _ ltac:(cbn; lia) ltac:(discriminate)).
    + exists LJobsClosed. eexists. split; [discriminate|]. exact (st_jobs_closed job buf nthreads _ _ _ _ _ _ _ _).
  - (* waiting for a result *)
    left. destruct (find_waiting d s id I DI) as [[f X]|[[f X]|[f X]]]; [rewrite PEND in X; destruct X|rewrite RUN in X; destruct X|].
    apply in_split in X. destruct X as (r1 & r2 & X). destruct s; cbn in *; subst.
    exists LResult. eexists. split; [discriminate|]. exact (st_result job buf nthreads _ _ _ _ _ r1 id f r2 _ _ _ _).
  - (* sending *)
    left. destruct (st_consumer s) eqn:C.
    + destruct (st_out s) as [|g ou] eqn:OU; destruct s; cbn in *; subst.
      * exists LOutput. destruct (Nat.eq_dec (out_cap buf) 0) as [Z|Z]; eexists; (split; [discriminate|]).
        -- exact (st_out_rdv job buf nthreads _ _ _ _ _ _ _ f _ Z).
        -- exact (st_out_buf job buf nthreads _ _ _ _ _ _ _ f [] CActive _ ltac:(cbn; lia) ltac:(discriminate)).
      * exists LRecv. eexists. split; [discriminate|]. exact (st_recv_some job buf nthreads _ _ _ _ _ _ _ _ g ou _).
    + destruct (i_ended d s I C) as [X _]. congruence.
    + destruct s; cbn in *; subst. exists LOutput. eexists. split; [discriminate|]. exact (st_out_fail job buf nthreads _ _ _ _ _ _ _ f _ _).
  - (* dispatch finished *)
    destruct (i_ddone d s I DI) as [SU JO].
    destruct (st_consumer s) eqn:C.
    + left. destruct (st_out s) as [|g ou] eqn:OU; destruct s; cbn in *; subst.
      * exists LRecvNone. eexists. split; [discriminate|]. exact (st_recv_none job buf nthreads _ _ _ _ _ _ _ _).
      * exists LRecv. eexists. split; [discriminate|]. exact (st_recv_some job buf nthreads _ _ _ _ _ _ _ _ g ou _).
    + right. assert (P := i_place d s I). rewrite PEND, RUN, JO, SU, DI in P. cbn in P. symmetry in P. apply Permutation_nil in P.
      unfold settled. rewrite C. repeat (split; [assumption|]). split; [|discriminate]. destruct (st_results s); [reflexivity|discriminate].
    + right. assert (P := i_place d s I). rewrite PEND, RUN, JO, SU, DI in P. cbn in P. symmetry in P. apply Permutation_nil in P.
      unfold settled. rewrite C. repeat (split; [assumption|]). split; [|discriminate]. destruct (st_results s); [reflexivity|discriminate].
Qed.

(* a step without dropping keeps the consumer *)
Lemma step_keeps : forall s l s', step s l s' -> l <> LDrop -> st_consumer s <> CDropped -> st_consumer s' <> CDropped.
Proof. intros s l s' H N C. destruct H; cbn in *; congruence. Qed.
Lemma step_abort : forall d s l s', inv d s -> step s l s' -> (forall f, In f frames -> job f <> Panic) -> st_aborted s' = false.
Proof.
  intros d s l s' I H HJ. destruct H; try reflexivity. exfalso.
  assert (IR := i_run d _ I). cbn in IR. apply Forall_app in IR. destruct IR as [_ IR]. inversion IR as [|? ? P _]; subst. cbn in P.
  apply nth_error_In in P. exact (HJ f P H).
Qed.
Lemma run_to_end : forall n d s, weight s <= n -> inv d s -> st_aborted s = false -> st_consumer s <> CDropped -> 1 <= nthreads ->
  (forall f, In f frames -> job f <> Panic) ->
  exists ls s' d', exec job buf nthreads s ls s' /\ inv d' s' /\ settled s' /\ st_consumer s' = CEnded /\ ~ In LDrop ls.
Proof.
  induction n as [n IH] using lt_wf_ind; intros d s HW I HA HC HN HJ.
  destruct (progress d s I HA HN HJ) as [(l & s1 & NL & ST)|ST].
  - assert (W1 := weight_step _ _ _ ST). destruct (IH (weight s1) ltac:(lia) (next_d l d) s1 (le_n _)) as (ls & s' & d' & E & I' & SE & CE & ND).
    + eapply inv_step; eassumption.
    + eapply step_abort; eassumption.
    + eapply step_keeps; eassumption.
    + exact HN.
    + exact HJ.
    + exists (l :: ls), s', d'. split; [econstructor; eassumption|]. repeat (split; [assumption|]). intros [X|X]; [congruence|contradiction].
  - exists [], s, d. split; [constructor|]. split; [exact I|]. split; [exact ST|]. split; [|intros []].
    destruct ST as (_ & _ & _ & _ & _ & _ & ST). destruct (st_consumer s); congruence.
Qed.

Lemma complete : forall d s, inv d s -> st_submit s = SDone -> st_dispatch s = DDone -> st_jobs s = [] -> st_consumer s = CEnded ->
  Forall2 (fun f f' => job f = Val f') frames (st_recv s).
Proof.
  intros d s I S1 D1 J1 C1. assert (O := i_order d s I). rewrite D1, J1, S1 in O. cbn in O.
  assert (ND := i_d d s I). assert (d = st_next s). { destruct (st_next s - d) eqn:E; [lia|discriminate]. } subst d.
  assert (IN := i_sdone _ s I S1). rewrite (i_input _ s I) in IN.
  assert (LE := i_nx _ s I). assert (LL : length (skipn (st_next s) frames) = 0) by (rewrite IN; reflexivity). rewrite skipn_length in LL.
  assert (Y := i_out _ s I). rewrite C1 in Y. specialize (Y ltac:(discriminate)). rewrite (proj2 (i_ended _ s I C1)), app_nil_r in Y.
  rewrite firstn_all2 in Y by lia. exact Y.
Qed.

(* aborting needs a failing job *)
Lemma aborted_bad : forall s ls s', exec job buf nthreads s ls s' -> forall d, inv d s -> (st_aborted s = true -> exists f, In f frames /\ job f = Panic) ->
  st_aborted s' = true -> exists f, In f frames /\ job f = Panic.
Proof.
  induction 1 as [s|s l s1 ls s2 ST EX IH]; intros d I H; [exact H|]. apply (IH (next_d l d)); [eapply inv_step; eassumption|].
  intro A. destruct ST; cbn in A; try discriminate.
  match goal with X : job ?f = Panic |- _ => exists f; split; [|exact X] end.
  assert (IR := i_run d _ I). cbn in IR. apply Forall_app in IR. destruct IR as [_ IR]. inversion IR as [|? ? P _]; subst. cbn in P.
  eapply nth_error_In. exact P.
Qed.

(* ---- each job is run at most once ---- *)
Definition finished (ls : list label) : list nat := flat_map (fun l => match l with LFinish id => [id] | _ => [] end) ls.
Record hist (done : list nat) (s : state) : Prop := mkHist {
  h_nodup : NoDup (done ++ map fst (st_running s) ++ map fst (st_pending s));
  h_lt : Forall (fun i => i < st_next s) (done ++ map fst (st_running s) ++ map fst (st_pending s)) }.
Lemma hist_perm : forall done done' s s', hist done s ->
  Permutation (done ++ map fst (st_running s) ++ map fst (st_pending s)) (done' ++ map fst (st_running s') ++ map fst (st_pending s')) ->
  st_next s <= st_next s' -> hist done' s'.
Proof.
  intros done done' s s' [A B] P L. constructor.
  - eapply Permutation_NoDup; eassumption.
  - rewrite Forall_forall in *. intros x I. symmetry in P. apply (Permutation_in _ P) in I. specialize (B x I). lia.
Qed.
Lemma hist_step : forall done s l s', hist done s -> step s l s' -> hist (done ++ finished [l]) s'.
Proof.
  intros done s l s' H ST. destruct ST; cbn [finished flat_map app]; rewrite ?app_nil_r;
    try (eapply hist_perm; [exact H| |]; cbn [st_running st_pending st_next]; [reflexivity|lia]).
  - (* take *)
    destruct H as [A B]. cbn [st_running st_pending st_next] in *. constructor; cbn [st_running st_pending st_next].
    + rewrite map_app. cbn [map fst]. rewrite !app_assoc. eapply Permutation_NoDup; [apply Permutation_cons_append|].
      constructor; [|rewrite <- app_assoc; exact A]. intro X. rewrite <- app_assoc in X. rewrite Forall_forall in B. specialize (B nx X). lia.
    + rewrite map_app. cbn [map fst]. rewrite !app_assoc. apply Forall_app. rewrite <- app_assoc. split; [|constructor; [lia|constructor]].
      eapply Forall_impl; [|exact B]. cbn. lia.
  - (* start *)
    eapply hist_perm; [exact H| |]; cbn [st_running st_pending st_next]; [|lia]. apply Permutation_app_head.
    rewrite !map_app. cbn [map fst]. rewrite <- app_assoc. apply Permutation_app_head. cbn [app]. symmetry. apply Permutation_middle.
  - (* finish *)
    eapply hist_perm; [exact H| |]; cbn [st_running st_pending st_next]; [|lia]. rewrite <- app_assoc. apply Permutation_app_head.
    rewrite !map_app. cbn [map fst app]. rewrite <- app_assoc. cbn [app]. rewrite <- app_assoc. symmetry. apply Permutation_middle.
Qed.
Lemma hist_exec : forall s ls s', exec job buf nthreads s ls s' -> forall done, hist done s -> hist (done ++ finished ls) s'.
Proof.
  induction 1 as [s|s l s1 ls s2 ST EX IH]; intros done H; [cbn; rewrite app_nil_r; exact H|].
  specialize (IH _ (hist_step _ _ _ _ H ST)). rewrite <- app_assoc in IH. unfold finished in *. cbn [flat_map] in *. rewrite app_nil_r in IH. exact IH.
Qed.
End Inv.
