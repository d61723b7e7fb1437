(* Property C100: the Reed-Solomon stage over any iterator of frames: one that goes on for ever, pauses, panics or does not
   return. [live_exec next job buf nthreads (start_with src) ls (src', s)]: s is what the stage can have come to by some
   interleaving ls of its threads, the iterator now being in state src' (M_RsSource.v). *)
From Verif Require Import Base L_Base M_Reader M_Frame M_ReedSolomon M_RsPipeline M_Live S_Live M_Pipeline M_Pause S_Pause M_FrameLive M_Cut S_RsPipeline M_RsSource S_RsSource
  L_RsPipeline L_Pause L_RsSource P_RsPipeline P_RsLive.
Open Scope nat_scope.

(* What has been received is, in order, the processed first frames the iterator has returned; the iterator was asked for
   no more than these and at most one end, and never again after its end *)
Theorem C100_in_order : forall S F (next : pullable S F) (job : F -> outcome F) buf nthreads src ls src' s,
  live_exec next job buf nthreads (start_with src) ls (src', s) ->
  exists frames after, hands next src frames after /\ length frames = st_next s /\
    map (fun f => Val f) (st_recv s) = map job (firstn (length (st_recv s)) frames) /\
    (src' = after /\ ~ In LEnd ls \/
     stops next after src' /\ exists l1 l2, ls = l1 ++ LEnd :: l2 /\ ~ In LTake l2 /\ ~ In LEnd l2 /\ ~ In LEnd l1).
Proof.
  intros S F next job buf nthreads src ls src' s E. destruct (from_start _ _ _ _ _ _ _ _ E) as (frames & after & H1 & H2 & H3 & H4 & H5).
  assert (R : reachable job buf nthreads frames s) by (exists ls; exact H3). destruct (inv_reachable _ _ _ _ _ R) as [d I].
  exists frames, after. split; [exact H1|]. split.
  { assert (X := i_input _ _ _ _ I). rewrite H2 in X. assert (Y := i_nx _ _ _ _ I). assert (Z := f_equal (@length _) X). rewrite skipn_length in Z. cbn in Z. lia. }
  split.
  { assert (X := i_recv _ _ _ _ I). clear -X. revert X. generalize (firstn (length (st_recv s)) frames). generalize (st_recv s). induction 1; [reflexivity|]. cbn. congruence. }
  assert (DEC : In LEnd ls \/ ~ In LEnd ls).
  { clear. induction ls as [|l ls IH]; [right; intros []|]. destruct IH as [K|K]; [left; right; exact K|].
    destruct l; try (right; intros [Q|Q]; [discriminate|contradiction]). left; left; reflexivity. }
  destruct DEC as [K|K]; [|left; split; [apply H4; exact K|exact K]]. right. split; [apply H5; exact K|].
  clear -E K. assert (G : forall w w', live_exec next job buf nthreads w ls w' -> In LEnd ls ->
    exists l1 l2, ls = l1 ++ LEnd :: l2 /\ ~ In LTake l2 /\ ~ In LEnd l2 /\ ~ In LEnd l1).
  { clear. induction 1 as [w|w l w1 ls w2 ST EX IH]; intro K; [destruct K|].
    assert (L : l = LEnd \/ l <> LEnd) by (destruct l; auto; right; discriminate). destruct L as [->|NL].
    - exists [], ls. split; [reflexivity|]. assert (D : st_submit (snd w1) = SDone). { inversion ST; subst; try reflexivity. congruence. }
      destruct (done_rest _ _ _ _ _ _ _ EX D) as (_ & A & B). auto.
    - destruct IH as (l1 & l2 & -> & A & B & C); [destruct K; [congruence|assumption]|]. exists (l :: l1), l2. split; [reflexivity|]. split; [exact A|]. split; [exact B|]. intros [Q|Q]; [congruence|contradiction]. }
  exact (G _ _ E K).
Qed.
Print Assumptions C100_in_order.

(* The end is reported only when the iterator has come to its end, and all frames before it have been delivered *)
Theorem C100_end : forall S F (next : pullable S F) (job : F -> outcome F) buf nthreads src ls src' s,
  live_exec next job buf nthreads (start_with src) ls (src', s) -> st_consumer s = CEnded ->
  exists frames after, hands next src frames after /\ stops next after src' /\ map (fun f => Val f) (st_recv s) = map job frames.
Proof.
  intros S F next job buf nthreads src ls src' s E C. destruct (from_start _ _ _ _ _ _ _ _ E) as (frames & after & H1 & H2 & H3 & H4 & H5).
  assert (R : reachable job buf nthreads frames s) by (exists ls; exact H3). destruct (inv_reachable _ _ _ _ _ R) as [d I].
  destruct (i_ended _ _ _ _ I C) as [D _]. destruct (i_ddone _ _ _ _ I D) as [SU JO].
  exists frames, after. split; [exact H1|]. split.
  - apply H5. destruct (submit_ended _ _ _ _ _ _ H3) as [X|X]; [discriminate|exact SU|discriminate|exact X].
  - assert (X := complete _ _ _ _ I SU D JO C). clear -X. induction X; [reflexivity|]. cbn. congruence.
Qed.
Print Assumptions C100_end.

(* An iterator that pauses: what it returns after its first end is lost, unlike in the other adaptors (C80). An iterator
   that panics: the frames before are delivered and an ordinary end is reported. *)
Theorem C100_first_sitting : forall S F (next : pullable S F) (job : F -> outcome F) buf nthreads src parts h ls src' s first rest,
  steady next -> sittings next src parts h -> parts = first :: rest ->
  live_exec next job buf nthreads (start_with src) ls (src', s) ->
  (exists k, map (fun f => Val f) (st_recv s) = map job (firstn k first)) /\
  (st_consumer s = CEnded -> map (fun f => Val f) (st_recv s) = map job first).
Proof.
  intros S F next job buf nthreads src parts h ls src' s first rest SD SIT -> E.
  assert (P : exists h1, pulls next src first h1) by (inversion SIT; subst; eauto). destruct P as [h1 P]. split.
  - destruct (C100_in_order _ _ _ _ _ _ _ _ _ _ E) as (frames & after & H1 & H2 & H3 & _).
    destruct (hands_prefix _ _ _ SD _ _ _ H1 _ _ P) as (more & -> & _). exists (length (st_recv s)). rewrite H3. f_equal.
    assert (L : length (st_recv s) <= length frames). { assert (Q := f_equal (@length _) H3). rewrite !map_length, firstn_length in Q. lia. }
    rewrite firstn_app. replace (length (st_recv s) - length frames) with 0 by lia. cbn. rewrite app_nil_r. reflexivity.
  - intro C. destruct (C100_end _ _ _ _ _ _ _ _ _ _ E C) as (frames & after & H1 & H2 & H3).
    destruct (hands_prefix _ _ _ SD _ _ _ H1 _ _ P) as (more & -> & P2). destruct (stops_here _ _ _ SD _ _ _ _ H2 P2) as [-> _].
    rewrite app_nil_r. exact H3.
Qed.
Print Assumptions C100_first_sitting.

(* Nothing the stage does tells an iterator that panics from one that ends *)
Theorem C100_panic_hidden : forall S1 S2 F (next1 : pullable S1 F) (next2 : pullable S2 F) (job : F -> outcome F) buf nthreads src1 src2 frames h1 h2,
  steady next1 -> steady next2 -> pulls next1 src1 frames h1 -> pulls next2 src2 frames h2 -> h1 <> Forever -> h2 <> Forever ->
  forall ls s, (exists a, live_exec next1 job buf nthreads (start_with src1) ls (a, s)) <->
               (exists b, live_exec next2 job buf nthreads (start_with src2) ls (b, s)).
Proof.
  assert (G : forall S1 S2 F (next1 : pullable S1 F) (next2 : pullable S2 F) (job : F -> outcome F) buf nthreads src1 src2 frames h1 h2,
    steady next1 -> steady next2 -> pulls next1 src1 frames h1 -> pulls next2 src2 frames h2 -> h2 <> Forever ->
    forall ls s a, live_exec next1 job buf nthreads (start_with src1) ls (a, s) -> exists b, live_exec next2 job buf nthreads (start_with src2) ls (b, s)).
  { intros S1 S2 F next1 next2 job buf nthreads src1 src2 frames h1 h2 SD1 SD2 P1 P2 N2 ls s a E.
    destruct (from_start _ _ _ _ _ _ _ _ E) as (fs & af & H1 & H2 & H3 & H4 & H5).
    destruct (hands_prefix _ _ _ SD1 _ _ _ H1 _ _ P1) as (more & -> & P1').
    destruct (pulls_hands _ _ _ _ _ _ P2) as (e2 & HH & K). destruct K as [K|K]; [contradiction|].
    assert (SPLIT : forall S F (next : pullable S F) l1 l2 s s', hands next s (l1 ++ l2) s' -> exists m, hands next s l1 m /\ hands next m l2 s').
    { clear. induction l1 as [|x l1 IH]; intros l2 s s' H; [exists s; split; [constructor|exact H]|]. cbn [app] in H. inversion H; subst.
      destruct (IH _ _ _ H5) as (m & A & B). exists m. split; [econstructor; eassumption|exact B]. }
    destruct (SPLIT _ _ _ _ _ _ _ HH) as (m & A & B).
    destruct (list_live next2 job buf nthreads _ _ _ H3 src2 m) as [b X].
    - exact A.
    - intro L. destruct (stops_here _ _ _ SD1 _ _ _ _ (H5 L) P1') as [-> _]. inversion B; subst. exact K.
    - exists b. unfold with_input in X. cbn in X. destruct s; cbn in *; subst. exact X. }
  intros S1 S2 F next1 next2 job buf nthreads src1 src2 frames h1 h2 SD1 SD2 P1 P2 N1 N2 ls s. split; intros [x E].
  - exact (G _ _ _ _ _ _ _ _ _ _ _ _ _ SD1 SD2 P1 P2 N2 _ _ _ E).
  - exact (G _ _ _ _ _ _ _ _ _ _ _ _ _ SD2 SD1 P2 P1 N1 _ _ _ E).
Qed.
Print Assumptions C100_panic_hidden.

(* As long as the iterator returns from its calls, something can happen, until the end has been reported (or the caller is gone
   and all threads have ended) *)
Theorem C100_no_deadlock : forall S F (next : pullable S F) (job : F -> outcome F) buf nthreads src ls src' s,
  1 <= nthreads -> (forall frames after f, hands next src frames after -> In f frames -> job f <> Panic) ->
  live_exec next job buf nthreads (start_with src) ls (src', s) ->
  (exists n x, next n src' = Some x) ->
  (exists l w, l <> LDrop /\ live_step next job buf nthreads (src', s) l w) \/
  (st_submit s = SDone /\ st_dispatch s = DDone /\ st_pending s = [] /\ st_running s = [] /\ (st_consumer s = CDropped \/ st_consumer s = CEnded)).
Proof.
  intros S F next job buf nthreads src ls src' s HN HJ E (n & x & EX). destruct (from_start _ _ _ _ _ _ _ _ E) as (frames & after & H1 & H2 & H3 & H4 & H5).
  assert (R : reachable job buf nthreads frames s) by (exists ls; exact H3).
  destruct (C46_no_deadlock _ _ _ _ _ _ HN (fun f I => HJ _ _ f H1 I) R) as [(l & s' & NL & ST)|(A & B & C & D & X)].
  - left. assert (LL : l = LTake \/ l = LEnd \/ l <> LTake /\ l <> LEnd) by (destruct l; auto; right; right; split; discriminate).
    destruct LL as [->|[->|[A B]]].
    + inversion ST; subst. cbn in H2. discriminate.
    + inversion ST; subst. destruct x as [[[f|] b]|].
      * exists LTake. eexists. split; [discriminate|]. eapply lv_take. exact EX.
      * exists LEnd. eexists. split; [discriminate|]. eapply lv_end. exact EX.
      * exists LEnd. eexists. split; [discriminate|]. eapply lv_panic. exact EX.
    + exists l, (src', s'). split; [exact NL|]. apply lv_stage; assumption.
  - right. split; [exact A|]. split; [exact B|]. split; [exact C|]. split; [exact D|]. tauto.
Qed.
Print Assumptions C100_no_deadlock.

(* Frames keep coming: the number of steps that can have been made is bounded by the number of frames received. So the
   stage does nothing for ever without delivering, whatever the schedule, also on an iterator without end. *)
Theorem C100_keeps_coming : forall S F (next : pullable S F) (job : F -> outcome F) buf nthreads src ls src' s,
  live_exec next job buf nthreads (start_with src) ls (src', s) -> st_consumer s <> CDropped ->
  length ls <= 8 * (length (st_recv s) + 3 * buf + 2) + 4 /\ st_next s <= length (st_recv s) + 3 * buf + 2.
Proof.
  intros S F next job buf nthreads src ls src' s E C. destruct (from_start _ _ _ _ _ _ _ _ E) as (frames & after & H1 & H2 & H3 & _).
  assert (R : reachable job buf nthreads frames s) by (exists ls; exact H3).
  destruct (C67_back_pressure _ _ _ _ _ _ R C) as [B X]. rewrite H2 in X.
  assert (Z := f_equal (@length _) X). rewrite skipn_length in Z. cbn in Z. assert (T := C46_terminates _ _ _ _ _ _ _ H3). split; lia.
Qed.
Print Assumptions C100_keeps_coming.

(* An iterator that does not return for the moment, or ever: everything it has returned is delivered when the threads have
   nothing else to do *)
Theorem C100_nothing_held_back : forall S F (next : pullable S F) (job : F -> outcome F) buf nthreads src ls src' s,
  1 <= nthreads -> (forall frames after f, hands next src frames after -> In f frames -> job f <> Panic) ->
  live_exec next job buf nthreads (start_with src) ls (src', s) -> st_consumer s <> CDropped ->
  (forall l w, live_step next job buf nthreads (src', s) l w -> source_acts l \/ l = LDrop) ->
  exists frames after, hands next src frames after /\ map (fun f => Val f) (st_recv s) = map job frames /\ (src' = after \/ stops next after src').
Proof.
  intros S F next job buf nthreads src ls src' s HN HJ E C ST. destruct (from_start _ _ _ _ _ _ _ _ E) as (frames & after & H1 & H2 & H3 & H4 & H5).
  assert (R : reachable job buf nthreads frames s) by (exists ls; exact H3).
  destruct (C67_nothing_held_back _ _ _ _ _ _ HN (fun f I => HJ _ _ f H1 I) R C) as [A B].
  { intros l s' X. assert (LL : l = LTake \/ l = LEnd \/ l <> LTake /\ l <> LEnd) by (destruct l; auto; right; right; split; discriminate).
    destruct LL as [->|[->|[Y Z]]]; [left; left; reflexivity|left; right; reflexivity|]. apply (ST l (src', s')). apply lv_stage; assumption. }
  destruct (C100_in_order _ _ _ _ _ _ _ _ _ _ E) as (fs2 & af2 & G1 & G2 & G3 & G4). exists fs2, af2. split; [exact G1|]. split; [|tauto].
  rewrite G3, A, <- G2, firstn_all. reflexivity.
Qed.
Print Assumptions C100_nothing_held_back.

(* Pipeline::start with Reed-Solomon, of which C81 and C83 speak, is this stage over the frames of the reader *)
Theorem C100_pipeline : forall ovf k nthreads p o r s, st_input s = [] ->
  (start_rs_live ovf k nthreads p o r s <->
   exists ls src', live_exec (frames_live ovf (pl_derandomize p)) (rs_job k (rs_of_opts o)) (ro_buffer_size o) nthreads
                     (start_with (frames_new r (pl_block_length p))) ls (src', s) /\ ~ In LDrop ls).
Proof.
  intros ovf k nthreads p o r s I0. split.
  - intro ST. revert I0. destruct ST as [source frames h ls s0 -> H1 H2 H3 H4]. intro I0. destruct (list_live (frames_live ovf (pl_derandomize p)) _ _ _ _ _ _ H2 _ _ H1) as [b X].
    + intro L. destruct (H4 L) as (n & x & E & N). destruct x as [[[f|] b]|]; [exfalso; exact (N f b eq_refl)| |].
      * exists b, n. left. exact E.
      * exists h, n. right. auto.
    + exists ls, b. split; [|exact H3]. unfold with_input in X. cbn in X. destruct s0; cbn in *; subst. exact X.
  - intros (ls & src' & E & ND). destruct (from_start _ _ _ _ _ _ _ _ E) as (frames & after & H1 & H2 & H3 & H4 & H5).
    econstructor; [reflexivity|exact H1|exact H3|exact ND|]. intro L. destruct (H5 L) as (n & [X|[X _]]); exists n; eexists; (split; [exact X|]); intros; discriminate.
Qed.
Print Assumptions C100_pipeline.

(* An iterator that ends or panics: no execution is longer than some bound, and from every state that can be come to, as long
   as the caller does not leave, the end is come to, with all frames delivered *)
Theorem C100_finishes : forall S F (next : pullable S F) (job : F -> outcome F) buf nthreads src frames h,
  steady next -> pulls next src frames h -> h <> Forever ->
  1 <= nthreads -> (forall f, In f frames -> job f <> Panic) ->
  forall ls src' s, live_exec next job buf nthreads (start_with src) ls (src', s) ->
  length ls <= 8 * length frames + 4 /\
  (st_consumer s <> CDropped ->
   exists ls2 src2 s2, live_exec next job buf nthreads (src', s) ls2 (src2, s2) /\ ~ In LDrop ls2 /\
     st_consumer s2 = CEnded /\ map (fun f => Val f) (st_recv s2) = map job frames).
Proof.
  intros S F next job buf nthreads src frames h SD P NF HN HJ.
  assert (BD : forall ls src' s, live_exec next job buf nthreads (start_with src) ls (src', s) -> length ls <= 8 * length frames + 4).
  { intros ls src' s E. destruct (from_start _ _ _ _ _ _ _ _ E) as (fs & after & H1 & H2 & H3 & _).
    destruct (hands_prefix _ _ _ SD _ _ _ H1 _ _ P) as (more & EQ & _). assert (T := C46_terminates _ _ _ _ _ _ _ H3). rewrite EQ, app_length. lia. }
  assert (JJ : forall fs after f, hands next src fs after -> In f fs -> job f <> Panic).
  { intros fs after f H1 I. destruct (hands_prefix _ _ _ SD _ _ _ H1 _ _ P) as (more & -> & _). apply HJ, in_or_app. left. exact I. }
  assert (TRANS : forall w1 l1 w2 l2 w3, live_exec next job buf nthreads w1 l1 w2 -> live_exec next job buf nthreads w2 l2 w3 -> live_exec next job buf nthreads w1 (l1 ++ l2) w3).
  { intros w1 l1 w2 l2 w3 A B. induction A; [exact B|]. cbn [app]. econstructor; [eassumption|]. auto. }
  intros ls src' s E. split; [exact (BD _ _ _ E)|].
  remember (8 * length frames + 4 - length ls) as n eqn:EN. assert (LN : 8 * length frames + 4 - length ls <= n) by lia. clear EN. revert ls src' s E LN.
  induction n as [|n IH]; intros ls src' s E LN C.
  all: assert (FIN : st_consumer s = CEnded -> exists ls2 src2 s2, live_exec next job buf nthreads (src', s) ls2 (src2, s2) /\ ~ In LDrop ls2 /\ st_consumer s2 = CEnded /\ map (fun f => Val f) (st_recv s2) = map job frames)
    by (intro CE; exists [], src', s; split; [constructor|]; split; [intros []|]; split; [exact CE|];
        destruct (C100_end _ _ _ _ _ _ _ _ _ _ E CE) as (fs & af & H1 & H2 & H3); destruct (hands_prefix _ _ _ SD _ _ _ H1 _ _ P) as (more & EQ & P2);
        destruct (stops_here _ _ _ SD _ _ _ _ H2 P2) as [-> _]; rewrite EQ, app_nil_r; exact H3).
  all: assert (PR : (exists l w, l <> LDrop /\ live_step next job buf nthreads (src', s) l w) \/ st_consumer s = CEnded)
    by (destruct (from_start _ _ _ _ _ _ _ _ E) as (fs & after & H1 & H2 & H3 & H4 & H5);
        assert (R : reachable job buf nthreads fs s) by (exists ls; exact H3);
        destruct (C46_no_deadlock _ _ _ _ _ _ HN (fun f I => JJ _ _ f H1 I) R) as [(l & s' & NL & ST)|(_ & _ & _ & _ & [X|[X _]])]; [left|congruence|right; exact X];
        assert (LL : l = LTake \/ l = LEnd \/ l <> LTake /\ l <> LEnd) by (destruct l; auto; right; right; split; discriminate);
        destruct LL as [->|[->|[A B]]];
        [ inversion ST; subst; cbn in H2; discriminate
        | inversion ST; subst;
          assert (NE : ~ In LEnd ls) by (intro L; assert (G : forall w l0 w', live_exec next job buf nthreads w l0 w' -> In LEnd l0 -> st_submit (snd w') = SDone);
             [clear; assert (K : forall w l0 w', live_exec next job buf nthreads w l0 w' -> st_submit (snd w) = SDone -> st_submit (snd w') = SDone);
               [induction 1 as [w|w l w1 l0 w2 ST EX IH]; intro D; [exact D|]; apply IH; inversion ST; subst; try (cbn in D; discriminate);
                match goal with A : ?l <> LTake, B : ?l <> LEnd, H : step _ _ _ _ ?l _ |- _ => destruct (stage_input _ _ _ _ _ _ H A B) as (_ & X & _); apply X; exact D end|];
              induction 1 as [w|w l w1 l0 w2 ST EX IH]; intro L; [destruct L|]; destruct L as [->|L]; [|exact (IH L)]; apply (K _ _ _ EX); inversion ST; subst; try reflexivity; congruence|];
             specialize (G _ _ _ E L); cbn in G; discriminate);
          specialize (H4 NE); subst after; destruct (hands_prefix _ _ _ SD _ _ _ H1 _ _ P) as (more & _ & P2);
          inversion P2; subst; [exists LEnd; eexists; split; [discriminate|]; eapply lv_end; eassumption
                               |exists LEnd; eexists; split; [discriminate|]; eapply lv_panic; eassumption
                               |congruence
                               |exists LTake; eexists; split; [discriminate|]; eapply lv_take; eassumption]
        | exists l, (src', s'); split; [exact NL|]; apply lv_stage; assumption ]).
  all: destruct PR as [(l & [src1 s1] & NL & ST)|PR]; [|exact (FIN PR)].
  - exfalso. assert (X := BD _ _ _ (TRANS _ _ _ _ _ E (lx_cons _ _ _ _ _ _ _ _ _ ST (lx_nil _ _ _ _ _)))). rewrite app_length in X. cbn in X. lia.
  - assert (E1 := TRANS _ _ _ _ _ E (lx_cons _ _ _ _ _ _ _ _ _ ST (lx_nil _ _ _ _ _))).
    assert (C1 : st_consumer s1 <> CDropped).
    { inversion ST; subst; try exact C. eapply step_keeps; eassumption. }
    destruct (IH _ _ _ E1) as (l2 & a2 & s2 & X & Y & Z & W); [rewrite app_length; cbn; lia|exact C1|].
    exists (l :: l2), a2, s2. split; [econstructor; eassumption|]. split; [intros [Q|Q]; [congruence|contradiction]|]. auto.
Qed.
Print Assumptions C100_finishes.

(* An iterator without end: dropping the result does not stop the threads, ever. They go on to ask for frames and to process
   them, step after step, whether or not anybody receives them. *)
Theorem C100_drop_never_stops_refuted : forall S F (next : pullable S F) (job : F -> outcome F) buf nthreads src,
  steady next -> (forall frames after, hands next src frames after -> exists n f after', next n after = Some (Val (Some f, after'))) ->
  1 <= nthreads -> (forall frames after f, hands next src frames after -> In f frames -> job f <> Panic) ->
  forall ls src' s, live_exec next job buf nthreads (start_with src) ls (src', s) ->
  st_submit s <> SDone /\ length ls <= 8 * st_next s + 4 /\ exists l w, l <> LDrop /\ live_step next job buf nthreads (src', s) l w.
Proof.
  intros S F next job buf nthreads src SD EL HN HJ ls src' s E. destruct (from_start _ _ _ _ _ _ _ _ E) as (frames & after & H1 & H2 & H3 & H4 & H5).
  destruct (EL _ _ H1) as (n & f & a' & EX).
  assert (NL : ~ In LEnd ls). { intro L. destruct (H5 L) as (m & [X|[X _]]); pose proof (steady_same _ _ _ SD _ _ _ _ _ EX X); discriminate. }
  assert (NS : st_submit s <> SDone). { intro D. destruct (submit_ended _ _ _ _ _ _ H3) as [X|X]; [discriminate|exact D|discriminate|contradiction]. }
  split; [exact NS|]. split.
  - assert (T := C46_terminates _ _ _ _ _ _ _ H3). assert (R : reachable job buf nthreads frames s) by (exists ls; exact H3). destruct (inv_reachable _ _ _ _ _ R) as [d I].
    assert (X := i_input _ _ _ _ I). rewrite H2 in X. assert (Z := f_equal (@length _) X). rewrite skipn_length in Z. cbn in Z. lia.
  - rewrite (H4 NL) in *. destruct (C100_no_deadlock _ _ _ _ _ _ _ _ _ _ HN HJ E) as [X|(X & _)]; [eauto|exact X|contradiction].
Qed.
Print Assumptions C100_drop_never_stops_refuted.

(* ---- concrete cases ---- *)
(* an iterator without end: 0, 1, 2, ... *)
Definition counting : pullable nat nat := direct (fun n => Val (Some n, S n)).
Example C100_ex_endless : exists src s, live_exec counting (fun n => Val (n + 10)) 1 1 (start_with 0)
    [LTake; LStart 0; LSubmit; LJob; LTake; LFinish 0; LResult; LOutput; LRecv; LStart 1; LFinish 1; LSubmit; LJob; LResult; LOutput; LRecv] (src, s) /\
  st_recv s = [10; 11] /\ st_consumer s = CActive /\ src = 2 /\ steady counting.
Proof.
  eexists _, _. split.
  - eapply lx_cons; [apply (lv_take _ _ _ _ 0); reflexivity|]. cbn [app].
    eapply lx_cons; [apply lv_stage; [discriminate..|]; apply (st_start _ _ _ _ _ _ [] 0 0 []); cbn; lia|]. cbn [app].
    eapply lx_cons; [apply lv_stage; [discriminate..|]; apply st_submit_buf; [unfold jobs_cap; cbn; lia|discriminate]|]. cbn [app].
    eapply lx_cons; [apply lv_stage; [discriminate..|]; apply st_job|].
    eapply lx_cons; [apply (lv_take _ _ _ _ 0); reflexivity|]. cbn [app].
    eapply lx_cons; [apply lv_stage; [discriminate..|]; apply (st_finish _ _ _ _ _ _ _ [] 0 0 10 []); reflexivity|]. cbn [app].
    eapply lx_cons; [apply lv_stage; [discriminate..|]; apply (st_result _ _ _ _ _ _ _ _ [] 0 10 [])|]. cbn [app].
    eapply lx_cons; [apply lv_stage; [discriminate..|]; apply st_out_buf; [unfold out_cap; cbn; lia|discriminate]|]. cbn [app].
    eapply lx_cons; [apply lv_stage; [discriminate..|]; apply st_recv_some|]. cbn [app].
    eapply lx_cons; [apply lv_stage; [discriminate..|]; apply (st_start _ _ _ _ _ _ [] 1 1 []); cbn; lia|]. cbn [app].
    eapply lx_cons; [apply lv_stage; [discriminate..|]; apply (st_finish _ _ _ _ _ _ _ [] 1 1 11 []); reflexivity|]. cbn [app].
    eapply lx_cons; [apply lv_stage; [discriminate..|]; apply st_submit_buf; [unfold jobs_cap; cbn; lia|discriminate]|]. cbn [app].
    eapply lx_cons; [apply lv_stage; [discriminate..|]; apply st_job|].
    eapply lx_cons; [apply lv_stage; [discriminate..|]; apply (st_result _ _ _ _ _ _ _ _ [] 1 11 [])|]. cbn [app].
    eapply lx_cons; [apply lv_stage; [discriminate..|]; apply st_out_buf; [unfold out_cap; cbn; lia|discriminate]|]. cbn [app].
    eapply lx_cons; [apply lv_stage; [discriminate..|]; apply st_recv_some|]. cbn [app]. apply lx_nil.
  - cbn. split; [reflexivity|]. split; [reflexivity|]. split; [reflexivity|]. intros n m x y _ H. exact H.
Qed.
(* iterators that return 1 and 2, and then panic, or pause and return 3 *)
Definition broken : pullable (list (option nat)) nat := direct (fun l => match l with [] => Panic | x :: l => Val (x, l) end).
Example C100_ex_panic : steady broken /\ pulls broken [Some 1; Some 2] [1; 2] Breaks /\
  pulls (direct scripted) (script [[1; 2]; [3]]) [1; 2] (EndsIn (script [[3]])) /\
  exists ls a s, live_exec broken (fun n => Val (n + 10)) 0 2 (start_with [Some 1; Some 2]) ls (a, s) /\ st_consumer s = CEnded /\ st_recv s = [11; 12].
Proof.
  assert (SD : steady broken) by (intros n m x y _ H; exact H).
  assert (P : pulls broken [Some 1; Some 2] [1; 2] Breaks).
  { eapply (pulls_item _ 0); [reflexivity|]. eapply (pulls_item _ 0); [reflexivity|]. apply (pulls_panic _ 0). reflexivity. }
  split; [exact SD|]. split; [exact P|]. split.
  - eapply (pulls_item _ 0); [reflexivity|]. eapply (pulls_item _ 0); [reflexivity|]. apply (pulls_end _ 0). reflexivity.
  - destruct (C100_finishes _ _ broken (fun n => Val (n + 10)) 0 2 _ _ _ SD P) with (ls := @nil label) (src' := [Some 1; Some 2]) (s := init (F := nat) []) as [_ K];
      [discriminate|lia|discriminate|apply lx_nil|]. destruct K as (ls & a & s & A & _ & B & C); [discriminate|].
    exists ls, a, s. split; [exact A|]. split; [exact B|]. cbn in C. destruct (st_recv s) as [|x [|y [|z l]]]; try discriminate. cbn in C. injection C as <- <-. reflexivity.
Qed.
Example C100_ex_no_end : forall n l after, hands counting n l after -> exists m f after', counting m after = Some (Val (Some f, after')).
Proof. intros n l after _. exists 0, after, (S after). reflexivity. Qed.
