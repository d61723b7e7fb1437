(* Property C66: every stage of the decoding works on a live source. What it has yielded from the beginning of an input
   does not depend on what follows, so it can be yielded before that arrives; and it is the beginning of what the
   whole input yields. *)
From Verif Require Import Base S_Bits M_Reader M_Bytes M_Packet M_Group M_Sync M_Frame M_FramePackets S_Packet S_Sync S_Group
  L_Base L_Bits L_Timecode L_Reader L_Packet L_Group L_Merge L_SyncRun L_SyncIter P_Sync P_Group.
Open Scope nat_scope.


Lemma yields_prefix : forall S A (next : S -> outcome (option A * S)) (R : S -> S -> Prop),
  (forall s t a s', R s t -> next s = Val (Some a, s') -> exists t', next t = Val (Some a, t') /\ R s' t') ->
  forall s l, yields next s l -> forall t l', R s t -> yields next t l' -> starts_with l' l.
Proof.
  intros S A next R SIM s l H. induction H as [s s' E|s s' a items E Y IH]; intros t l' HR HT.
  - exists l'. reflexivity.
  - destruct (SIM s t a s' HR E) as (t' & E' & HR'). inversion HT as [? ? E2|? ? ? ? E2 Y2]; subst; rewrite E' in E2; [discriminate|].
    injection E2 as <- <-. destruct (IH _ _ HR' Y2) as [rest ->]. exists rest. reflexivity.
Qed.

(* ---- packets from bytes ---- *)
Lemma re_tok_extend : forall n ts f g st ts' more f', re_tok n ts AtEof = (g, st, ts') -> st <> Some UnexpectedEof ->
  f = AtEof -> re_tok n (ts ++ more) f' = (g, st, ts' ++ more).
Proof.
  induction n as [|n IH]; intros ts f g st ts' more f' H N _; [cbn in *; injection H as <- <- <-; reflexivity|].
  destruct ts as [|[b|k|] ts]; cbn [re_tok app] in *.
  - injection H as <- <- <-. congruence.
  - destruct (re_tok n ts AtEof) as [[g0 s0] t0] eqn:E. injection H as <- <- <-. rewrite (IH _ AtEof _ _ _ more f' E N eq_refl). reflexivity.
  - injection H as <- <- <-. reflexivity.
  - injection H as <- <- <-. congruence.
Qed.
Theorem C66_packets_from_bytes : forall r1 r2 more items1 items2,
  Forall (fun t => match t with TByte b => (b < 256)%N | _ => True end) (transcript (evs r2)) ->
  transcript (evs r2) = transcript (evs r1) ++ more -> fin r1 = AtEof ->
  yields pdec_next (pdec_new r1) items1 -> yields pdec_next (pdec_new r2) items2 -> starts_with items2 items1.
Proof.
  intros r1 r2 more items1 items2 OK HT HF Y1 Y2.
  assert (OK1 : tbytes_ok (transcript (evs r1))) by (rewrite HT in OK; apply tbytes_ok_app in OK; apply OK).
  apply pdec_yields in Y1; [|exact OK1]. apply pdec_yields in Y2; [|exact OK].
  refine (yields_prefix _ _ ptok_next (fun s t => pk_fin s = AtEof /\ pk_off s = pk_off t /\ pk_toks t = pk_toks s ++ more) _ _ _ Y1 _ _ _ Y2).
  - intros s t a s' (F & O & T) E. unfold ptok_next in *. rewrite T.
    destruct (re_tok 6 (pk_toks s) (pk_fin s)) as [[hd st] ts] eqn:E1. rewrite F in E1.
    destruct st as [k|].
    + assert (NK : Some k <> Some UnexpectedEof) by (intro C; injection C as ->; discriminate).
      rewrite (re_tok_extend _ _ AtEof _ _ _ more (pk_fin t) E1 NK eq_refl). destruct k; try congruence; injection E as <- <-; eexists; (split; [reflexivity|]); cbn; auto.
    + rewrite (re_tok_extend _ _ AtEof _ _ _ more (pk_fin t) E1 ltac:(discriminate) eq_refl).
      destruct (wire_len hd <=? MAX_LEN); [|discriminate].
      destruct (re_tok (wire_len hd - 6) ts (pk_fin s)) as [[body st2] ts2] eqn:E2. rewrite F in E2. destruct st2 as [k|].
      * assert (NK : Some k <> Some UnexpectedEof) by (intro C; injection C as ->; discriminate).
        rewrite (re_tok_extend _ _ AtEof _ _ _ more (pk_fin t) E2 NK eq_refl). destruct k; try congruence; injection E as <- <-; eexists; (split; [reflexivity|]); cbn; auto.
      * rewrite (re_tok_extend _ _ AtEof _ _ _ more (pk_fin t) E2 ltac:(discriminate) eq_refl). injection E as <- <-. rewrite O.
        eexists. split; [reflexivity|]. cbn. auto.
  - cbn. auto.
Qed.
Print Assumptions C66_packets_from_bytes.

(* ---- blocks from bytes: every block that is complete in the beginning ---- *)
Lemma earliest_extend : forall asm a b from p, asm <> [] -> earliest asm a from p -> earliest asm (a ++ b) from p.
Proof.
  intros asm a b from p NE (L & O & N). assert (B := occurs_bound _ _ _ NE O). split; [exact L|]. split; [apply occurs_app; [exact B|exact O]|].
  intros q Hq C. apply (N q Hq). rewrite occurs_app in C; [exact C|lia].
Qed.
Lemma designates_unique : forall l d d', designates l d -> designates l d' -> d = d'.
Proof. intros l d d'. unfold designates. lia. Qed.
Lemma run_extend : forall asm len a b, asm <> [] -> forall pos last items, sync_run asm len a pos last items ->
  forall items', sync_run asm len (a ++ b) pos last items' ->
  forall i blk d, nth_error items i = Some (Ok blk) -> designates (bl_loc blk) d -> d + 8 * len <= length a ->
    nth_error items' i = Some (Ok blk).
Proof.
  intros asm len a b NE pos last items R. induction R as [pos last NM|pos last p d data items EA D L OK BD R IH|pos last p d data EA D L AL OK LD BD|pos last p d EA D L AL];
    intros items' R' i blk d0 EI DS LE.
  - destruct i; discriminate.
  - assert (EA' := earliest_extend _ _ b _ _ NE EA).
    inversion R' as [? ? NM|? ? p' d' data' items1 EA1 D1 L1 OK1 BD1 R1|? ? p' d' data' EA1 D1 L1 AL1 OK1 LD1 BD1|? ? p' d' EA1 D1 L1 AL1]; subst.
    + exfalso. apply (NM p); apply EA'.
    + rewrite (earliest_unique _ _ _ _ _ EA1 EA') in *.
      assert (data' = data). { apply bits_inj; [assumption..|]. rewrite BD1, BD, skipn_app, firstn_app, skipn_length.
        replace (8 * len - (length a - (p + 8 * length asm))) with 0 by lia. cbn [firstn]. rewrite app_nil_r. reflexivity. } subst data'.
      destruct i as [|i]; [exact EI|]. cbn [nth_error] in *. eapply IH; eassumption.
    + exfalso. rewrite (earliest_unique _ _ _ _ _ EA1 EA') in *. rewrite app_length in L1. lia.
    + exfalso. rewrite (earliest_unique _ _ _ _ _ EA1 EA') in *. rewrite app_length in L1. lia.
  - exfalso. destruct i as [|i]; [|destruct i; discriminate]. cbn in EI. injection EI as <-. cbn [bl_loc] in DS.
    assert (d0 = d) by (eapply designates_unique; [exact DS|apply loc_at_designates]). lia.
  - destruct i as [|i]; [discriminate|destruct i; discriminate].
Qed.
Theorem C66_blocks_from_bytes : forall asm len r1 r2 bs more items1 items2,
  bytes_ok asm -> asm <> [] -> bytes_ok (bs ++ more) -> delivers r1 bs -> delivers r2 (bs ++ more) ->
  yields biter_next (synchronize r1 asm len) items1 -> yields biter_next (synchronize r2 asm len) items2 ->
  forall i b d, nth_error items1 i = Some (Ok b) -> designates (bl_loc b) d -> d + 8 * len <= 8 * length bs ->
    nth_error items2 i = Some (Ok b).
Proof.
  intros asm len r1 r2 bs more items1 items2 OA NE OB D1 D2 Y1 Y2 i b d EI DS LE.
  assert (OB1 : bytes_ok bs) by (apply bytes_ok_app in OB; apply OB).
  apply (C23_sync_exact asm len r1 bs items1 OA NE OB1 D1) in Y1. apply (C23_sync_exact asm len r2 _ items2 OA NE OB D2) in Y2.
  rewrite bits_app in Y2. refine (run_extend asm len (bits bs) (bits more) NE _ _ items1 Y1 items2 Y2 i b d EI DS _). rewrite bits_length. lia.
Qed.
Print Assumptions C66_blocks_from_bytes.

(* ---- frames from CADUs ---- *)
Theorem C66_frames_from_cadus : forall ovf cadus more frames1 frames2,
  yields (fdec_next ovf) (frame_decoder cadus) frames1 -> yields (fdec_next ovf) (frame_decoder (cadus ++ more)) frames2 ->
  starts_with frames2 frames1.
Proof.
  intros ovf cadus more frames1 frames2 Y1 Y2.
  refine (yields_prefix _ _ (fdec_next ovf) (fun s t => t = mkFdec (fd_counters s) (fd_cadus s ++ more)) _ _ _ Y1 _ _ _ Y2); [|reflexivity].
  intros s t f s' -> E. unfold fdec_next in *. cbn [fd_cadus fd_counters]. destruct (fd_cadus s) as [|c rest]; [discriminate|]. cbn [app].
  destruct (vcdu_decode (bl_data c)) as [[h|]|]; cbn [obind] in *; try discriminate.
  destruct (if negb (v_vcid h =? VCID_FILL)%N then _ else _) as [m|]; cbn [obind] in *; [|discriminate].
  injection E as <- <-. eexists. split; [reflexivity|]. reflexivity.
Qed.
Print Assumptions C66_frames_from_cadus.

(* ---- packets from frames ---- *)
Theorem C66_packets_from_frames : forall izone trailer frames more packets1 packets2,
  yields (fpiter_next izone trailer) (packet_decoder frames) packets1 ->
  yields (fpiter_next izone trailer) (packet_decoder (frames ++ more)) packets2 -> starts_with packets2 packets1.
Proof.
  intros izone trailer frames more packets1 packets2 Y1 Y2.
  assert (LP : forall fs m p s', fp_loop izone trailer fs m = Val (Some p, s') ->
    fp_loop izone trailer (fs ++ more) m = Val (Some p, mkFpiter (fp_frames s' ++ more) (fp_trackers s') (fp_ready s'))).
  { induction fs as [|f fs IH]; intros m p s' E; cbn [fp_loop app] in *; [discriminate|].
    destruct (fp_frame izone trailer (get_tracker (v_vcid (f_header f)) m) f) as [[ps t]|]; cbn [obind] in *; [|discriminate].
    destruct ps as [|q ps]; [apply IH; exact E|]. injection E as <- <-. reflexivity. }
  refine (yields_prefix _ _ (fpiter_next izone trailer) (fun s t => t = mkFpiter (fp_frames s ++ more) (fp_trackers s) (fp_ready s)) _ _ _ Y1 _ _ _ Y2); [|reflexivity].
  intros s t p s' -> E. unfold fpiter_next in *. cbn [fp_ready fp_frames fp_trackers]. destruct (fp_ready s) as [|q ps].
  - apply LP in E. eexists. split; [exact E|]. reflexivity.
  - injection E as <- <-. eexists. split; reflexivity.
Qed.
Print Assumptions C66_packets_from_frames.

(* ---- groups from packets: all but the last group, which may grow unless it is a standalone packet ---- *)
Theorem C66_groups_from_packets : forall ps more init g gs2,
  yields giter_next (giter_new ps) (init ++ [g]) -> yields giter_next (giter_new (ps ++ more)) gs2 ->
  exists grown rest, gs2 = init ++ mkGroup (g_apid g) (g_packets g ++ grown) :: rest /\
    (forall p, g_packets g = [p] -> sequence_flags (p_header p) = 3%N -> grown = []).
Proof.
  intros ps more init g gs2 Y1 Y2. apply C10_groups_exact in Y1. apply C10_groups_exact in Y2.
  remember (init ++ [g]) as gs eqn:EG. revert init EG gs2 Y2. induction Y1 as [|p ps gs SF G IH|p run rest gs SF FR HR G IH]; intros init EG gs2 Y2.
  - destruct init; discriminate.
  - cbn [app] in Y2. inversion Y2 as [|? ? gs' SF' G'|? ? ? ? SF']; subst; [|congruence]. destruct init as [|i0 init].
    + cbn [app] in EG. injection EG as <- _. exists [], gs'. cbn. split; [reflexivity|]. auto.
    + cbn [app] in EG. injection EG as <- EG. destruct (IH init EG gs' G') as (gr & re & -> & X). exists gr, re. auto.
  - cbn [app] in Y2. inversion Y2 as [|? ? gs' SF'|q run' rest' gs' SF' FR' HR' G' EP]; subst; [congruence|].
    match goal with H : run' ++ rest' = _ |- _ => rename H into EP end. rewrite <- app_assoc in EP.
    (* the longer run extends the shorter *)
    assert (K : exists grown, run' = run ++ grown /\ grown ++ rest' = rest ++ more /\ (rest <> [] -> grown = [])).
    { clear -EP FR FR' HR HR'. revert run' FR' EP. induction run as [|x run IHr]; intros run' FR' EP.
      - cbn in EP. exists run'. split; [reflexivity|]. split; [exact EP|]. intro N. destruct rest as [|y rest]; [congruence|].
        destruct run' as [|z run']; [reflexivity|]. exfalso. cbn in EP. injection EP as -> _. inversion FR'; subst. contradiction.
      - inversion FR; subst. destruct run' as [|z run'].
        + exfalso. cbn in EP. rewrite EP in HR'. contradiction.
        + cbn in EP. injection EP as -> EP. inversion FR'; subst. destruct (IHr H2 run' H4 EP) as (gr & -> & A & B). exists gr. auto. }
    destruct K as (grown & -> & EQ & NG). destruct init as [|i0 init].
    + cbn [app] in EG. injection EG as <- _. exists grown, gs'. cbn. split; [reflexivity|]. intros p' E S3. injection E as <- _. congruence.
    + cbn [app] in EG. injection EG as <- EG. assert (RN : rest <> []). { intros ->. inversion G; subst. destruct init; discriminate. }
      specialize (NG RN). subst grown. cbn in EQ. subst rest'. rewrite app_nil_r. destruct (IH init EG gs' G') as (gr & re & -> & X). exists gr, re. auto.
Qed.
Print Assumptions C66_groups_from_packets.

(* two packets of a group, then the rest of it: the group grows *)
Example C66_ex : let p a f q := mkPacket (mkHeader 0 0 false a f q 0) [0; 0; 0; 0; 0; 0; 9]%N 0 in
  yields giter_next (giter_new [p 5 3 0; p 7 1 1; p 7 0 2]%N) ([mkGroup 5 [p 5 3 0]] ++ [mkGroup 7 [p 7 1 1; p 7 0 2]])%N /\
  yields giter_next (giter_new ([p 5 3 0; p 7 1 1; p 7 0 2] ++ [p 7 2 3; p 5 3 1]))%N
    [mkGroup 5 [p 5 3 0]; mkGroup 7 [p 7 1 1; p 7 0 2; p 7 2 3]; mkGroup 5 [p 5 3 1]]%N.
Proof. split; (eapply run_yields with (fuel := 10); vm_compute; reflexivity). Qed.
