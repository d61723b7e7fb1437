(* Property C83: recordings that stop in the middle of a unit, and links that fail *)
From Verif Require Import Base S_Framing S_RsPipeline S_Bits S_Packet S_Pn S_Sync S_Frame S_FramePackets S_ReedSolomon S_Pipeline S_Loss S_Live S_Pause S_FrameLive S_Cut
  M_Reader M_Packet M_Bytes M_Sync M_Pn M_Frame M_FramePackets M_ReedSolomon M_RsPipeline M_Live M_Pipeline M_Pause M_Merge M_FrameLive M_Cut
  L_Base L_Bits L_Packet L_Pn L_Frame L_FramePackets L_FramePackets2 L_ReedSolomon L_RsPipeline L_Pipeline L_Sync L_SyncBits L_SyncRun L_SyncIter L_SyncSafe L_SyncFail L_Loss
  L_Live L_Pause L_FrameLive L_SyncTwin L_Timecode L_Cut
  P_Pn P_Sync P_Frame P_FramePackets P_ReedSolomon P_RsPipeline P_RsLive P_Pipeline P_Loss P_Causal P_Pause P_FrameLive.
Open Scope nat_scope.

Lemma air_of_link : forall izone trailer k p ws us c a e air, link izone trailer k p ws us c a e ->
  map snd air = map s_block (map fst (filter turned_up us)) -> Forall (fun gb => no_more ASM (fst gb) 0) air -> Forall (air_ok (pl_block_length p)) air.
Proof.
  intros izone trailer k p ws us c a e air (_ & _ & _ & _ & HTr & _ & _) EA HG.
  assert (X : Forall (fun b => bytes_ok b /\ length b = pl_block_length p) (map snd air)).
  { rewrite EA. apply Forall_map, Forall_map, Forall_forall. intros z I. apply filter_In in I. destruct I as [I F]. rewrite Forall_forall in HTr.
    destruct (HTr z I) as [_ [X|(cw & _ & A & B & _)]]; [unfold turned_up in F; rewrite X in F; discriminate|auto]. }
  clear -HG X. induction air as [|gb air IH]; constructor; inversion HG; inversion X; subst; auto. split; tauto.
Qed.

(* However a stream of units is cut, what is left are the first units, and something unfinished *)
Theorem C83_any_cut : forall izone trailer k p ws us c a e B tail n,
  link izone trailer k p ws us c a e -> heard us B tail -> no_more ASM tail 0 ->
  exists us1 us2 e1 part, us = us1 ++ us2 /\ link izone trailer k p ws us1 c a e1 /\ heard us1 (firstn n B) part /\ unfinished (pl_block_length p) part.
Proof.
  intros izone trailer k p ws us c a e B tail n HL (air & -> & EA & HG) NT.
  destruct (cut_air (pl_block_length p) tail NT air (air_of_link _ _ _ _ _ _ _ _ _ _ HL EA HG) n) as (air1 & part & E1 & (air2 & E2) & U).
  assert (LA : length air1 <= length (filter turned_up us)).
  { assert (X := f_equal (@length _) EA). rewrite !map_length in X. rewrite <- X, E2, app_length. lia. }
  destruct (found_prefix us (length air1) LA) as (us1 & us2 & E & F1). subst us. destruct (link_prefix _ _ _ _ _ _ _ _ _ _ HL) as (e1 & HL1).
  exists us1, us2, e1, part. split; [reflexivity|]. split; [exact HL1|]. split; [|exact U]. exists air1. split; [exact E1|]. split.
  - rewrite F1, <- !firstn_map, <- EA, E2, map_app, <- (map_length snd air1). symmetry. apply firstn_app_exact.
  - rewrite E2 in HG. apply Forall_app in HG. apply HG.
Qed.
Print Assumptions C83_any_cut.

(* the items of the synchronizer *)
Lemma live_items : forall izone trailer k p ws us c a e r bs part code, link izone trailer k p ws us c a e ->
  bytes_ok bs -> vtranscript (evs r) = map TByte bs -> fin r = Failing code ->
  heard us (bits bs) part -> unfinished (pl_block_length p) part ->
  exists items, reads biter_next (synchronize r ASM (pl_block_length p)) (map Ok items) Forever /\ map bl_data items = map s_block (map fst (filter turned_up us)).
Proof.
  intros izone trailer k p ws us c a e r bs part code HL Hb V F (air & EB & EA & HG) U.
  destruct (air_whole (pl_block_length p) part U air (air_of_link _ _ _ _ _ _ _ _ _ _ HL EA HG) [] 0) as (blocks & W & M). cbn [app length] in W.
  exists blocks. rewrite M, EA. split; [|reflexivity].
  assert (G : good ASM (pl_block_length p) 0 bs (syncer_new (mkReader (evs r) AtEof) (pl_block_length p) ASM) 0) by (apply good_start; split; [exact V|reflexivity]).
  assert (ES : synchronize r ASM (pl_block_length p) = mkBiter (ts code (syncer_new (mkReader (evs r) AtEof) (pl_block_length p) ASM)) 0).
  { unfold synchronize, syncer_new. destruct (create_patterns ASM). unfold ts, tb, tr. cbn. destruct r as [es f]. cbn in *. subst f. reflexivity. }
  rewrite ES. rewrite <- EB in W. apply (run_fails code ASM (pl_block_length p) ltac:(repeat constructor) ltac:(discriminate) bs Hb 0 0 blocks W _ G); [lia|]. rewrite <- ES. apply binv_start. discriminate.
Qed.
Lemma keep_map_Ok : forall A (l : list A), keep_ok (map Ok l) = l.
Proof. intros. rewrite <- oks_keep. apply oks_map_Ok. Qed.
Lemma live_frames : forall izone trailer ovf k p ws us c a e r bs part code, (pl_rs p <> None -> codec_ok k) -> link izone trailer k p ws us c a e ->
  bytes_ok bs -> vtranscript (evs r) = map TByte bs -> fin r = Failing code ->
  heard us (bits bs) part -> unfinished (pl_block_length p) part ->
  exists items fs, map bl_data items = map s_block (map fst (filter turned_up us)) /\ length fs = length items /\
    yields (fdec_next ovf) (frame_decoder (coded p items)) fs /\
    pulls (frames_live ovf (pl_derandomize p)) (frames_new r (pl_block_length p)) fs Forever.
Proof.
  intros izone trailer ovf k p ws us c a e r bs part code HK HL Hb V F HB U.
  destruct (live_items _ _ _ _ _ _ _ _ _ _ _ _ _ HL Hb V F HB U) as (items & R & EI).
  destruct (link_frames izone trailer ovf k p ws us c a e HK HL items EI) as (fs & _ & _ & Y & L & _).
  exists items, fs. split; [exact EI|]. split; [exact L|]. split; [exact Y|].
  assert (LC : length fs = length (coded p items)) by (rewrite L; unfold coded; destruct (pl_derandomize p); [rewrite map_length|]; reflexivity).
  assert (FR := fr_yields ovf (cadus_of p (map Ok items)) Running fs). unfold cadus_of in FR. rewrite keep_map_Ok in FR. fold (coded p items) in FR. specialize (FR Y).
  rewrite (all_readable ovf _ _ Y LC) in FR.
  destruct (C81_frames ovf p r _ _ fs Running R) as (h' & P & ST); [unfold cadus_of; rewrite keep_map_Ok; exact FR|].
  destruct h'; try discriminate ST. exact P.
Qed.

(* A device that delivers a stream, cut anywhere, and then fails for ever: the caller gets all frames, and all packets, that
   can be had of the units that are there, and nothing else, and then waits *)
Theorem C83_failing_link : forall izone trailer ovf k p ws us c a e r bs part code,
  link izone trailer k p ws us c a e -> pl_rs p = None ->
  bytes_ok bs -> vtranscript (evs r) = map TByte bs -> fin r = Failing code ->
  heard us (bits bs) part -> unfinished (pl_block_length p) part ->
  exists out cs, received izone trailer ws us a out cs /\
    pulls (frames_live ovf (pl_derandomize p)) (frames_new r (pl_block_length p)) out Forever /\
    pulls (unpack_next izone trailer (frames_live ovf (pl_derandomize p))) (unpack_new (frames_new r (pl_block_length p))) (concat cs) Forever.
Proof.
  intros izone trailer ovf k p ws us c a e r bs part code HL HR Hb V F HB U.
  destruct (live_frames izone trailer ovf k p ws us c a e r bs part code ltac:(congruence) HL Hb V F HB U) as (items & fs & EI & L & Y & P).
  destruct (link_frames izone trailer ovf k p ws us c a e ltac:(congruence) HL items EI) as (fs' & out & cs & Y' & _ & D & RC & YP & _).
  assert (fs' = fs) by (eapply yields_det; eassumption). subst fs'. rewrite HR in D.
  assert (out = fs) by (clear -D; induction D as [|x y l m E _ IH]; [reflexivity|]; cbn in E; congruence). subst out.
  exists fs, cs. split; [exact RC|]. split; [exact P|].
  assert (M : mono (frames_live ovf (pl_derandomize p))) by apply mono_frames.
  destruct (C80_packet_decoder _ (frames_live ovf (pl_derandomize p)) izone trailer (frames_new r (pl_block_length p)) [fs] Forever (concat cs)) as (outs & h' & SI & ST & LO & YK).
  - intros n m s x Hnm. apply (mono_le _ _ _ M _ _ _ _ Hnm).
  - apply sit_last. exact P.
  - cbn [concat]. rewrite app_nil_r. exact YP.
  - destruct outs as [|o [|]]; try discriminate LO. destruct h'; try discriminate ST. specialize (YK 1). cbn [firstn concat] in YK. rewrite !app_nil_r in YK.
    assert (o = concat cs) by (eapply yields_det; [exact YK|exact YP]). subst o. inversion SI; subst; [assumption|]. match goal with X : sittings _ _ [] _ |- _ => inversion X end.
Qed.
Print Assumptions C83_failing_link.

(* ---- with Reed-Solomon ---- *)
Lemma no_drop : forall F (job : F -> outcome F) buf nt s0 l0 s1, exec job buf nt s0 l0 s1 -> ~ In LDrop l0 -> st_consumer s0 <> CDropped -> st_consumer s1 <> CDropped.
Proof. induction 1 as [|s0 l s1 l0 s2 X _ IH]; [tauto|]. intros D C. apply IH; [intro Y; apply D; right; exact Y|]. eapply step_keeps; [exact X| |exact C]. intros ->. apply D. left. reflexivity. Qed.
Lemma jobs_fine : forall fs o k out, Forall2 (done_by k (Some o)) fs out -> forall f, In f fs -> rs_job k (rs_of_opts o) f <> Panic.
Proof. intros fs o k out D f I. induction D as [|x y l m E _ IH]; [destruct I|]. destruct I as [<-|I]; [cbn in E; congruence|exact (IH I)]. Qed.
Lemma in_order_done : forall k o buf nt frames s, reachable (rs_job k (rs_of_opts o)) buf nt frames s ->
  Forall2 (done_by k (Some o)) (firstn (length (st_recv s)) frames) (st_recv s).
Proof.
  intros k o buf nt taken s R. destruct (C45_in_order _ _ _ _ _ _ R) as [L ORD].
  clear -L ORD. revert taken L ORD. induction (st_recv s) as [|x l IH]; intros [|f fs] L ORD; cbn [length firstn] in *; try lia; [constructor|constructor|].
  constructor; [destruct (ORD 0 x eq_refl) as (g & G & J); injection G as <-; exact J|]. apply IH; [lia|]. intros i f' E. destruct (ORD (S i) f' E) as (g & G & J). exists g. auto.
Qed.

(* The same with Reed-Solomon, under every schedule: at any time the caller has received what is to be had of the first units.
   It has all of them when all have been taken from the device and the threads have nothing left to do; such a state can be
   come to; and the end is never reported. *)
Theorem C83_failing_link_rs : forall izone trailer ovf k nthreads p o ws us c a e r bs part code,
  link izone trailer k p ws us c a e -> pl_rs p = Some o -> codec_ok k -> 1 <= nthreads ->
  bytes_ok bs -> vtranscript (evs r) = map TByte bs -> fin r = Failing code ->
  heard us (bits bs) part -> unfinished (pl_block_length p) part ->
  (forall s, start_rs_live ovf k nthreads p o r s ->
     st_consumer s = CActive /\
     exists us1 us2 cs, us = us1 ++ us2 /\ received izone trailer ws us1 a (st_recv s) cs /\
       yields (fpiter_next izone trailer) (packet_decoder (st_recv s)) (concat cs) /\
       ((forall l s', step (rs_job k (rs_of_opts o)) (ro_buffer_size o) nthreads s l s' -> source_acts l \/ l = LDrop) ->
        st_next s = length (filter turned_up us) -> filter turned_up us1 = filter turned_up us)) /\
  exists s cs, start_rs_live ovf k nthreads p o r s /\ received izone trailer ws us a (st_recv s) cs /\
    yields (fpiter_next izone trailer) (packet_decoder (st_recv s)) (concat cs).
Proof.
  intros izone trailer ovf k nt p o ws us c a e r bs part code HL HR HK NT Hb V F HB U.
  assert (HK' : pl_rs p <> None -> codec_ok k) by auto.
  destruct (live_frames izone trailer ovf k p ws us c a e r bs part code HK' HL Hb V F HB U) as (items & fs & EI & LF & Y & P).
  destruct (link_frames izone trailer ovf k p ws us c a e HK' HL items EI) as (fs' & out & cs & Y' & _ & D & RC & YP & _).
  assert (fs' = fs) by (eapply yields_det; eassumption). subst fs'. rewrite HR in D.
  assert (LI : length items = length (filter turned_up us)) by (assert (X := f_equal (@length _) EI); rewrite !map_length in X; exact X).
  assert (M : mono (frames_live ovf (pl_derandomize p))) by apply mono_frames. split.
  - intros s [source taken t ls s' ES HH EX ND EN]. subst source. destruct (hands_prefix _ _ _ M _ _ _ HH _ _ P) as (rest & E & P2).
    assert (RE : reachable (rs_job k (rs_of_opts o)) (ro_buffer_size o) nt taken s') by (exists ls; exact EX).
    assert (NC := no_drop _ _ _ _ _ _ _ EX ND ltac:(discriminate)). assert (OD := in_order_done _ _ _ _ _ _ RE).
    assert (LR : length (st_recv s') <= length taken) by apply (C45_in_order _ _ _ _ _ _ RE).
    split.
    + destruct (st_consumer s') eqn:EC; try reflexivity; try contradiction. exfalso.
      destruct (ended_by _ _ _ _ _ _ _ EX ND ltac:(discriminate) (or_intror (or_intror EC))) as [I|[C|[C|C]]]; try discriminate.
      destruct (EN I) as (n & x & EX2 & NX). inversion P2 as [m ? s2 E2|m ? E2|? E2|m ? s2 a2 l2 ? E2 P3]; subst.
      * rewrite E2 in EX2. discriminate.
      * rewrite (mono_eq _ _ _ M _ _ _ _ _ EX2 E2) in NX. destruct (NX _ _ eq_refl).
    + assert (EF : firstn (length (st_recv s')) fs = firstn (length (st_recv s')) taken).
      { rewrite E, firstn_app. replace (length (st_recv s') - length taken) with 0 by lia. cbn [firstn]. apply app_nil_r. }
      rewrite <- EF, <- HR in OD. assert (LT := f_equal (@length _) E). rewrite app_length in LT.
      destruct (link_received izone trailer ovf k p ws us c a e HK' HL items fs EI Y (length (st_recv s')) (st_recv s') ltac:(lia) OD) as (us1 & us2 & cs1 & EU & F1 & R1 & Y1).
      exists us1, us2, cs1. split; [exact EU|]. split; [exact R1|]. split; [exact Y1|]. intros STK LN. rewrite F1.
      destruct (C67_nothing_held_back _ (rs_job k (rs_of_opts o)) (ro_buffer_size o) nt taken s' NT) as [L _]; try assumption.
      { intros f I. apply (jobs_fine fs o k out D). rewrite E. apply in_or_app. left. exact I. }
      apply firstn_all2. lia.
  - destruct (pulls_hands _ _ _ _ _ _ P) as [t HH].
    destruct (all_frames _ (rs_job k (rs_of_opts o)) (ro_buffer_size o) nt NT fs out D 0 []) as (ls & EX & ND & NE).
    eexists. exists cs. split; [eapply start_rs_intro with (ls := ls); [reflexivity|exact HH|exact EX|exact ND|intro C; destruct (NE C)]|].
    cbn [st_recv app]. auto.
Qed.
Print Assumptions C83_failing_link_rs.

(* ---- files ---- *)
Lemma oks_app : forall A (l m : list (result A)), oks (l ++ m) = oks l ++ oks m.
Proof. induction l as [|[x|x] l IH]; intro m; cbn [oks app]; [reflexivity|cbn; f_equal; apply IH|apply IH]. Qed.
Lemma one_more : forall ovf x cs m fs, yields (fdec_next ovf) (mkFdec m cs) fs -> length fs = length cs ->
  forall frames, yields (fdec_next ovf) (mkFdec m (cs ++ [x])) frames \/ panics_after (fdec_next ovf) (mkFdec m (cs ++ [x])) frames ->
  exists extra, frames = fs ++ extra /\ (extra = [] \/ exists f, extra = [f] /\ f_data f = bl_data x /\ f_integrity f = None /\ vcdu_decode (bl_data x) = Val (Some (f_header f))).
Proof.
  intros ovf x. induction cs as [|c cs IH]; intros m fs Y L frames Z.
  - destruct fs; [|discriminate]. exists frames. split; [reflexivity|]. cbn [app] in Z.
    assert (ONE : forall f s', fdec_next ovf (mkFdec m [x]) = Val (Some f, s') -> (exists m', s' = mkFdec m' []) /\ f_data f = bl_data x /\ f_integrity f = None /\ vcdu_decode (bl_data x) = Val (Some (f_header f))).
    { intros f s' E. unfold fdec_next in E. cbn [fd_cadus fd_counters] in E. destruct (vcdu_decode (bl_data x)) as [[h|]|]; cbn [obind] in E; try discriminate.
      destruct (if negb (v_vcid h =? VCID_FILL)%N then _ else _); cbn [obind] in E; [|discriminate]. injection E as <- <-. cbn. eauto. }
    destruct Z as [Z|Z]; [inversion Z as [? s2 E|? s2 f l E Y2]|inversion Z as [? E|? s2 f l E Y2]]; subst; auto; destruct (ONE _ _ E) as ((m' & ->) & D1 & D2 & D3); right; exists f; (split; [|auto]); f_equal; inversion Y2; subst; try reflexivity; discriminate.
  - inversion Y as [? ? E|? s2 f l E Y2]; subst; [discriminate|]. assert (N := dstep_list ovf m c cs). assert (N2 := dstep_list ovf m c (cs ++ [x])).
    rewrite N in E. cbn [app] in Z. destruct (dstep ovf m c) as [[y m']|]; cbn [obind] in *; [|discriminate]. injection E as -> <-.
    assert (Z2 : exists l', frames = f :: l' /\ (yields (fdec_next ovf) (mkFdec m' (cs ++ [x])) l' \/ panics_after (fdec_next ovf) (mkFdec m' (cs ++ [x])) l')).
    { destruct Z as [Z|Z]; [inversion Z as [? s2 E|? s2 f2 l2 E Z2]|inversion Z as [? E|? s2 f2 l2 E Z2]]; subst; rewrite N2 in E; try discriminate; injection E as <- <-; eauto. }
    destruct Z2 as (l' & -> & Z2). destruct (IH m' l Y2 ltac:(cbn in L; lia) l' Z2) as (extra & -> & X). exists extra. split; [reflexivity|exact X].
Qed.
Lemma job_damaged : forall k p o f f', pl_rs p = Some o -> codec_ok k -> 1 <= ro_interleave o -> ro_virtual_fill o <= 223 * ro_interleave o ->
  f_integrity f = None -> bytes_ok (f_data f) -> length (f_data f) = pl_block_length p -> length (f_data f) + ro_virtual_fill o = 255 * ro_interleave o ->
  v_vcid (f_header f) <> 63%N -> beyond_repair k o (f_data f) -> rs_job k (rs_of_opts o) f = Val f' -> bad_frame f' /\ f_data f' = f_data f.
Proof.
  intros k p o f f' ER HK HI HV HN HB HL H2 NF BR J.
  destruct (z_rs k p o ER HK HI HV (mkSent (v_vcid (f_header f)) (f_data f) [], Damaged) f eq_refl) as (f2 & J2 & _ & (_ & B & _)).
  - cbn [fst snd s_vcid]. unfold z_frame, fated, damaged. cbn [fst snd s_vcid s_frame]. rewrite ER. destruct (N.eqb_spec (v_vcid (f_header f)) 63); [contradiction|].
    repeat (split; [reflexivity || assumption || (intro; contradiction)|]). reflexivity.
  - assert (f2 = f') by congruence. subst f2. assert (BF : bad_frame f') by (apply B; auto). split; [exact BF|].
    unfold rs_job in J. destruct (negb _); [|injection J as <-; reflexivity]. destruct (perform _ _ _) as [[[i d]|]|]; cbn [obind] in J; try discriminate. injection J as <-.
    unfold bad_frame in BF. cbn [f_integrity f_data] in *. destruct BF as [E|E]; injection E as ->; reflexivity.
Qed.
Lemma job_keeps : forall k c f f', rs_job k c f = Val f' -> f_header f' = f_header f /\ f_missing f' = f_missing f.
Proof.
  intros k c f f' J. unfold rs_job in J. destruct (negb _); [|injection J as <-; auto]. destruct (perform _ _ _) as [[[i d]|]|]; cbn [obind] in J; try discriminate. injection J as <-. auto.
Qed.

(* A file: all that is to be had of the units that are there is returned, in front. If the file stops behind a marker that
   starts on a byte, one more frame may follow; it is made of the part of the block that is there and of zeros behind it,
   which were never sent. With Reed-Solomon it is flagged if the decoder does not repair it; then it yields no packets. *)
Theorem C83_cut_file : forall izone trailer ovf k nthreads p ws us c a e r bs part,
  link izone trailer k p ws us c a e -> (pl_rs p <> None -> codec_ok k) ->
  bytes_ok bs -> delivers r bs -> heard us (bits bs) part -> unfinished (pl_block_length p) part ->
  forall out, pipeline_start ovf k nthreads p r out ->
  exists main extra cs, out = main ++ extra /\ received izone trailer ws us a main cs /\
    yields (fpiter_next izone trailer) (packet_decoder main) (concat cs) /\
    (forall packets, yields (fpiter_next izone trailer) (packet_decoder out) packets -> starts_with packets (concat cs)) /\
    (extra = [] \/
     exists f gap rest blk cw, extra = [f] /\ part = gap ++ bits ASM ++ rest /\ no_more ASM gap 0 /\ (length (bits bs) - length rest) mod 8 = 0 /\
       bits blk = rest ++ repeat false (8 * pl_block_length p - length rest) /\
       (if pl_derandomize p then randomized cw blk else blk = cw) /\ vcdu_decode cw = Val (Some (f_header f)) /\
       match pl_rs p with
       | None => f_data f = cw /\ f_integrity f = None
       | Some o => v_vcid (f_header f) <> 63%N -> beyond_repair k o cw ->
                   bad_frame f /\ yields (fpiter_next izone trailer) (packet_decoder out) (concat cs)
       end).
Proof.
  intros izone trailer ovf k nt p ws us c a e r bs part HL HK Hb HD (air & EB & EA & HG) UF out PS.
  destruct (air_cut (pl_block_length p) part UF air (air_of_link _ _ _ _ _ _ _ _ _ _ HL EA HG) [] 0) as (blocks & extra & SR & M & EX). cbn [app length] in SR. rewrite <- EB in SR.
  assert (EI : map bl_data blocks = map s_block (map fst (filter turned_up us))) by congruence.
  destruct (link_frames izone trailer ovf k p ws us c a e HK HL blocks EI) as (fs & main & cs & Y & LF & D & RC & YP & FOK).
  assert (LC : length fs = length (coded p blocks)) by (unfold coded; destruct (pl_derandomize p); rewrite ?map_length; exact LF).
  inversion PS as [items bl frames out' Y1 EBl Y2 HR]; subst out'.
  assert (Y1' := proj2 (sync_iff ASM (pl_block_length p) r bs _ ltac:(repeat constructor) ltac:(discriminate) Hb HD) SR).
  assert (EIt : items = map Ok blocks ++ extra) by (eapply yields_det; eassumption). subst items. clear Y1'.
  assert (DF : yields (fdec_next ovf) (frame_decoder bl) frames \/ panics_after (fdec_next ovf) (frame_decoder bl) frames) by (destruct Y2 as [Y2|[_ Y2]]; auto).
  assert (EBC : bl = coded p blocks ++ coded p (oks extra)).
  { rewrite EBl. unfold coded. rewrite oks_app, oks_map_Ok. destruct (pl_derandomize p); [unfold derandomize; apply map_app|reflexivity]. }
  clear EBl Y2.
  (* what comes out, for frames fs ++ more *)
  assert (OUT : forall more, frames = fs ++ more -> exists extra', out = main ++ extra' /\ Forall2 (done_by k (pl_rs p)) more extra').
  { intros more ->. assert (F2 : Forall2 (done_by k (pl_rs p)) (fs ++ more) out).
    { destruct (pl_rs p) as [o|]; [|subst out; clear; induction (fs ++ more); constructor; [reflexivity|assumption]].
      destruct HR as (s & R1 & R2 & R3). rewrite <- R3. exact (ended_all _ _ _ _ _ _ R1 R2). }
    apply Forall2_app_inv_l in F2. destruct F2 as (l1 & l2 & F1 & F2 & ->). exists l2. split; [|exact F2]. f_equal.
    eapply Forall2_unique; [|exact F1|exact D]. intros x y z. unfold done_by. destruct (pl_rs p); congruence. }
  assert (PRE : forall extra', out = main ++ extra' -> forall packets, yields (fpiter_next izone trailer) (packet_decoder out) packets -> starts_with packets (concat cs)).
  { intros extra' -> packets YY. exact (C66_packets_from_frames _ _ _ _ _ _ YP YY). }
  assert (NONE : oks extra = [] -> exists main' extra' cs', out = main' ++ extra' /\ received izone trailer ws us a main' cs' /\
    yields (fpiter_next izone trailer) (packet_decoder main') (concat cs') /\
    (forall packets, yields (fpiter_next izone trailer) (packet_decoder out) packets -> starts_with packets (concat cs')) /\ extra' = []).
  { intro E0. rewrite E0 in EBC. replace (coded p (@nil block)) with (@nil block) in EBC by (unfold coded; destruct (pl_derandomize p); reflexivity). rewrite app_nil_r in EBC. subst bl.
    assert (frames = fs). { destruct DF as [DF|DF]; [eapply yields_det; eassumption|destruct (yields_not_panics _ _ _ _ _ _ Y DF)]. }
    subst frames. destruct (OUT [] ltac:(rewrite app_nil_r; reflexivity)) as (extra' & EO & F2). inversion F2; subst extra'.
    exists main, [], cs. split; [exact EO|]. split; [exact RC|]. split; [exact YP|]. split; [exact (PRE _ EO)|reflexivity]. }
  destruct EX as [->|[->|(b & gap & rest & -> & EP & NG & AL & Bb & Lb & Eb)]].
  - destruct (NONE eq_refl) as (m1 & e1 & c1 & X1 & X2 & X3 & X4 & X5). exists m1, e1, c1. auto 10.
  - destruct (NONE eq_refl) as (m1 & e1 & c1 & X1 & X2 & X3 & X4 & X5). exists m1, e1, c1. auto 10.
  - clear NONE. set (x := if pl_derandomize p then derandomize_cadu b else b).
    assert (EC1 : coded p (oks [Ok b]) = [x]) by (unfold coded, x; cbn [oks]; destruct (pl_derandomize p); reflexivity). rewrite EC1 in EBC. rewrite EBC in DF.
    destruct (one_more ovf x (coded p blocks) [] fs Y LC frames DF) as (more & EF & MO). destruct (OUT more EF) as (extra' & EO & F2).
    exists main, extra', cs. split; [exact EO|]. split; [exact RC|]. split; [exact YP|]. split; [exact (PRE _ EO)|].
    destruct MO as [->|(f & -> & D1 & D2 & D3)]; [left; inversion F2; reflexivity|]. right.
    inversion F2 as [|? f' ? ? DN F3]; subst extra'. inversion F3; subst. clear F2 F3.
    destruct (C30_derandomize_length_bytes (bl_data b)) as [LD BD].
    assert (BX : bytes_ok (bl_data x)) by (unfold x, derandomize_cadu; destruct (pl_derandomize p); cbn [bl_data]; auto).
    assert (LX : length (bl_data x) = pl_block_length p) by (unfold x, derandomize_cadu; destruct (pl_derandomize p); cbn [bl_data]; congruence).
    exists f', gap, rest, (bl_data b), (bl_data x). split; [reflexivity|]. split; [reflexivity|]. split; [exact NG|]. split.
    { rewrite EB. replace (length (air_bits air ++ gap ++ bits ASM ++ rest) - length rest) with (length (air_bits air ++ gap) + 4 * 8) by (rewrite !app_length; change (length (bits ASM)) with 32; lia).
      rewrite Nat.mod_add by discriminate. exact AL. }
    split; [exact Eb|]. split.
    { unfold x, derandomize_cadu. destruct (pl_derandomize p); [|reflexivity]. cbn [bl_data]. rewrite <- (C30_derandomize_involution (bl_data b)) at 2. apply randomized_derandomize. auto. }
    destruct HL as (_ & _ & HRS & HLen & _). unfold done_by in DN. destruct (pl_rs p) as [o|] eqn:ER.
    + destruct (job_keeps _ _ _ _ DN) as [E1 _]. split; [rewrite E1; exact D3|]. intros NF BR. rewrite E1 in NF.
      assert (RL : length (f_data f) + ro_virtual_fill o = 255 * ro_interleave o).
      { unfold rs_job in DN. destruct (N.eqb_spec (v_vcid (f_header f)) VCID_FILL) as [|_]; [contradiction|]. cbn [negb] in DN.
        destruct (Nat.eq_dec (length (f_data f) + ro_virtual_fill o) (255 * ro_interleave o)) as [|NE]; [assumption|exfalso].
        destruct (proj2 (C42_error_iff k (rs_of_opts o) (f_data f) (HK ltac:(discriminate)) (proj1 HRS) eq_refl (proj2 HRS)) NE) as [er Ee]. rewrite Ee in DN. discriminate. }
      destruct (job_damaged k p o f f' ER (HK ltac:(discriminate)) (proj1 HRS) (proj2 HRS) D2) as [BF DE]; try congruence; try assumption.
      split; [exact BF|]. apply frun_yields. rewrite frun_app. apply frun_yields in YP. destruct YP as [P1 P2].
      destruct (snd (frun izone trailer [] main)) as [m'|]; [|congruence]. cbn [frun fst snd]. rewrite P1.
      destruct (mpdu_ok izone trailer f') as (mp & EM & _); [congruence|unfold long_enough; rewrite DE, D1, LX; exact HLen|].
      unfold fp_frame. rewrite EM. cbn [obind]. destruct BF as [-> | ->]; cbn; rewrite app_nil_r; split; congruence.
    + subst f'. split; [exact D3|]. auto.
Qed.
Print Assumptions C83_cut_file.

(* the pipeline returns, whatever the part of a unit at the end; with overflow checks and no Reed-Solomon see C32 *)
Theorem C83_cut_file_returns : forall izone trailer ovf k nthreads p ws us c a e r bs part,
  link izone trailer k p ws us c a e -> (pl_rs p <> None -> codec_ok k) -> 1 <= nthreads -> (ovf = false \/ pl_rs p <> None) ->
  (forall o, pl_rs p = Some o -> pl_block_length p + ro_virtual_fill o = 255 * ro_interleave o) ->
  bytes_ok bs -> delivers r bs -> heard us (bits bs) part -> unfinished (pl_block_length p) part ->
  exists out, pipeline_start ovf k nthreads p r out.
Proof.
  intros izone trailer ovf k nt p ws us c a e r bs part HL HK NT OV RL Hb HD (air & EB & EA & HG) UF.
  destruct (air_cut (pl_block_length p) part UF air (air_of_link _ _ _ _ _ _ _ _ _ _ HL EA HG) [] 0) as (blocks & extra & SR & M & EX). cbn [app length] in SR. rewrite <- EB in SR.
  assert (EI : map bl_data blocks = map s_block (map fst (filter turned_up us))) by congruence.
  destruct (link_frames izone trailer ovf k p ws us c a e HK HL blocks EI) as (fs & main & cs & Y & LF & D & _).
  assert (LC : length fs = length (coded p blocks)) by (unfold coded; destruct (pl_derandomize p); rewrite ?map_length; exact LF).
  assert (Y1 := proj2 (sync_iff ASM (pl_block_length p) r bs _ ltac:(repeat constructor) ltac:(discriminate) Hb HD) SR).
  set (bl := if pl_derandomize p then derandomize (oks (map Ok blocks ++ extra)) else oks (map Ok blocks ++ extra)).
  assert (EBC : bl = coded p blocks ++ coded p (oks extra)).
  { unfold bl, coded. rewrite oks_app, oks_map_Ok. destruct (pl_derandomize p); [unfold derandomize; apply map_app|reflexivity]. }
  assert (BB : Forall (fun b => bytes_ok (bl_data b) /\ length (bl_data b) = pl_block_length p) (blocks ++ oks extra)).
  { apply Forall_app. split.
    - apply Forall_map with (f := bl_data) (P := fun d => bytes_ok d /\ length d = pl_block_length p). rewrite M. apply Forall_map.
      eapply Forall_impl; [|exact (air_of_link _ _ _ _ _ _ _ _ _ _ HL EA HG)]. intros gb X. apply X.
    - destruct EX as [->|[->|(b & gap & rest & -> & _ & _ & _ & Bb & Lb & _)]]; cbn [oks]; repeat constructor; assumption. }
  assert (BC : Forall (fun b => bytes_ok (bl_data b) /\ length (bl_data b) = pl_block_length p) bl).
  { rewrite EBC. unfold coded. destruct (pl_derandomize p); [|exact BB]. rewrite <- map_app. apply Forall_map. eapply Forall_impl; [|exact BB]. intros b [X1 X2].
    destruct (C30_derandomize_length_bytes (bl_data b)) as [LD BD]. cbn. split; [auto|congruence]. }
  assert (DF : exists frames, decoded_frames ovf (pl_rs p) bl frames).
  { destruct OV as [-> |NR].
    - destruct (C33_total false bl) as [frames F]; [eapply Forall_impl; [|exact BC]; intros b X; apply X|discriminate|]. exists frames. left. exact F.
    - destruct (yields_or_panics ovf bl []) as [[frames F]|[frames F]]; exists frames; [left|right]; auto. }
  destruct DF as [frames DF]. destruct (pl_rs p) as [o|] eqn:ER; [|exists frames; eapply start_intro; [exact Y1|reflexivity|rewrite ER; exact DF|rewrite ER; reflexivity]].
  destruct HL as (_ & _ & HRS & _). rewrite ER in HRS.
  assert (FJ : forall f, In f frames -> rs_job k (rs_of_opts o) f <> Panic).
  { intros f I. unfold rs_job. destruct (negb _); [|discriminate].
    assert (LD : length (f_data f) = pl_block_length p).
    { assert (X : forall cs m l, yields (fdec_next ovf) (mkFdec m cs) l \/ panics_after (fdec_next ovf) (mkFdec m cs) l -> forall g, In g l -> exists b, In b cs /\ f_data g = bl_data b).
      { clear. induction cs as [|x cs IH]; intros m l Z g I.
        - destruct Z as [Z|Z]; inversion Z; subst; try discriminate. destruct I.
        - assert (N := dstep_list ovf m x cs). assert (N1 := dstep_list ovf m x []). unfold fdec_next at 1 in N1. cbn [fd_cadus fd_counters] in N1.
          assert (ONE : forall h s', fdec_next ovf (mkFdec m (x :: cs)) = Val (Some h, s') -> f_data h = bl_data x /\ exists m', s' = mkFdec m' cs).
          { intros h s' E. unfold fdec_next in E. cbn [fd_cadus fd_counters] in E. destruct (vcdu_decode (bl_data x)) as [[hd|]|]; cbn [obind] in E; try discriminate.
            destruct (if negb (v_vcid hd =? VCID_FILL)%N then _ else _); cbn [obind] in E; [|discriminate]. injection E as <- <-. cbn. eauto. }
          destruct Z as [Z|Z]; [inversion Z as [? s2 E|? s2 f2 l2 E Z2]|inversion Z as [? E|? s2 f2 l2 E Z2]]; subst; try (destruct I; fail);
            destruct (ONE _ _ E) as [D1 [m' ->]]; (destruct I as [<-|I]; [exists x; split; [left; reflexivity|exact D1]|]);
            destruct (IH m' l2 ltac:(auto) g I) as (b & I2 & E2); exists b; (split; [right; exact I2|exact E2]). }
      destruct (X bl [] frames ltac:(destruct DF as [DF|[_ DF]]; auto) f I) as (b & I2 & E2). rewrite E2. rewrite Forall_forall in BC. apply (BC b I2). }
    destruct (perform k (rs_of_opts o) (f_data f)) as [[[i d]|er]|] eqn:EP; cbn [obind]; try discriminate.
    - exfalso. apply (proj1 (C42_error_iff k (rs_of_opts o) (f_data f) (HK ltac:(discriminate)) (proj1 HRS) eq_refl (proj2 HRS))); [exists er; exact EP|].
      rewrite LD. exact (RL o eq_refl).
    - exfalso. destruct (proj1 (C42_panic_exact k (rs_of_opts o) (f_data f) (HK ltac:(discriminate)) (proj1 HRS) eq_refl) EP) as (_ & _ & X & _).
      change (rs_virtual_fill (rs_of_opts o)) with (ro_virtual_fill o) in X. change (rs_interleave (rs_of_opts o)) with (ro_interleave o) in X. lia. }
  destruct (C46_can_finish _ (rs_job k (rs_of_opts o)) (ro_buffer_size o) nt frames (init frames) NT FJ) as (ls & s' & E1 & _ & E2 & _); [exists []; constructor|discriminate|].
  exists (st_recv s'). eapply start_intro; [exact Y1|reflexivity|rewrite ER; exact DF|]. rewrite ER. exists s'. split; [exists ls; exact E1|auto].
Qed.
Print Assumptions C83_cut_file_returns.

(* ---- the packet that was never sent ---- *)
Lemma derand_app : forall l m i, derand_from i (l ++ m) = derand_from i l ++ derand_from (i + length l) m.
Proof.
  induction l as [|b l IH]; intros m i; cbn [app derand_from length]; [rewrite Nat.add_0_r; reflexivity|]. f_equal. rewrite IH. f_equal. f_equal. lia.
Qed.
Lemma bits_zeros : forall n, bits (repeat 0%N n) = repeat false (8 * n).
Proof. induction n as [|n IH]; [reflexivity|]. cbn [repeat]. rewrite bits_cons, IH. replace (8 * S n) with (8 + 8 * n) by lia. reflexivity. Qed.

(* Without Reed-Solomon, a file that stops behind the header of a packet yields a packet that was never sent: its last bytes,
   which are not in the file, are made up. Nothing in the frame or the packet tells. *)
Theorem C83_cut_file_refuted : forall ovf k nthreads p w scid v c sg iz spare tr m blk,
  pl_rs p = None -> wire_ok w -> telemetry w -> length (wire_bytes w) <= 2046 -> 6 <= m < length (wire_bytes w) ->
  (scid < 256)%N -> (v < 63)%N -> (c < 2 ^ 24)%N -> (sg < 256)%N -> (spare < 32)%N -> bytes_ok iz -> bytes_ok tr ->
  let frm := aos_frame scid v c sg iz spare 0 (wire_bytes w) tr in
  pl_block_length p = length frm -> (if pl_derandomize p then randomized frm blk else blk = frm) ->
  exists f d,
    pipeline_start ovf k nthreads p (reader_of (ASM ++ firstn (8 + length iz + m) blk)) [f] /\ f_integrity f = None /\ f_missing f = 0%N /\
    yields (fpiter_next (length iz) (length tr)) (packet_decoder [f]) [mkPacket (w_header w) d 0] /\
    length d = length (wire_bytes w) /\ firstn m d = firstn m (wire_bytes w) /\
    forall n, 8 * m <= n < 8 * length d -> nth n (bits d) false = (if pl_derandomize p then pn (8 * (8 + length iz) + n) else false).
Proof.
  intros ovf k nt p w scid v c sg iz spare tr m blk HR HW HT H2 Hm B1 B2 B3 B4 B5 Hiz Htr frm HL HB.
  set (K := 8 + length iz + m). set (n := length (wire_bytes w)) in *.
  assert (LE : length (encode_header (w_header w)) = 6) by reflexivity.
  assert (LF : length frm = 8 + length iz + n + length tr) by (unfold frm, aos_frame; rewrite !app_length, aos_header_length; cbn [length]; fold n; lia).
  assert (HW0 := HW). destruct HW as (HW1 & HW2 & HW3).
  assert (BW : bytes_ok (wire_bytes w)) by (rewrite <- (app_nil_r (wire_bytes w)); apply (stream_bytes [w]); constructor; [exact HW0|constructor]).
  assert (Bf : bytes_ok frm) by (unfold frm; apply aos_frame_bytes; try assumption; lia).
  (* the padded block, before derandomization *)
  set (z := fun i l => if pl_derandomize p then derand_from i l else l).
  assert (Lz : forall i l, length (z i l) = length l) by (intros; unfold z; destruct (pl_derandomize p); [apply derand_length|reflexivity]).
  assert (Bz : forall i l, bytes_ok l -> bytes_ok (z i l)) by (intros i l H; unfold z; destruct (pl_derandomize p); [apply derand_bytes_ok|]; exact H).
  assert (EZ : z 0 blk = frm).
  { unfold z. destruct (pl_derandomize p); [exact (derandomized frm blk Bf HB)|exact HB]. }
  assert (Lb : length blk = length frm) by (rewrite <- EZ; symmetry; apply Lz).
  assert (Bb : bytes_ok blk) by (destruct (pl_derandomize p); [apply HB|subst blk; exact Bf]).
  set (blk' := firstn K blk ++ repeat 0%N (length frm - K)).
  assert (EZ' : z 0 blk' = firstn K frm ++ z K (repeat 0%N (length frm - K))).
  { assert (LK : length (firstn K blk) = K) by (rewrite firstn_length; unfold K; lia).
    unfold blk', z. unfold z in EZ. destruct (pl_derandomize p).
    - rewrite derand_app, LK, Nat.add_0_l. f_equal. rewrite <- EZ. rewrite <- (firstn_skipn K blk) at 2. rewrite derand_app, LK.
      rewrite firstn_app, (firstn_all2 (derand_from 0 (firstn K blk))) by (rewrite derand_length; lia). rewrite derand_length, LK, Nat.sub_diag. cbn [firstn]. symmetry. apply app_nil_r.
    - congruence. }
  set (pad := z K (repeat 0%N (n - m))). set (tr' := z (K + (n - m)) (repeat 0%N (length tr))).
  assert (EP : z K (repeat 0%N (length frm - K)) = pad ++ tr').
  { replace (length frm - K) with ((n - m) + length tr) by (unfold K; lia). rewrite repeat_app. unfold pad, tr', z. destruct (pl_derandomize p); [|reflexivity].
    rewrite derand_app, repeat_length. reflexivity. }
  assert (B0 : forall j, bytes_ok (repeat 0%N j)) by (intro j; apply Forall_forall; intros x I; apply repeat_spec in I; subst x; reflexivity).
  assert (Lpad : length pad = n - m) by (unfold pad; rewrite Lz, repeat_length; reflexivity).
  assert (Ltr : length tr' = length tr) by (unfold tr'; rewrite Lz, repeat_length; reflexivity).
  assert (Hn : n = 6 + length (w_body w)) by (unfold n, wire_bytes; rewrite app_length, LE; reflexivity).
  set (w' := mkWire (w_header w) (firstn (m - 6) (w_body w) ++ pad)).
  assert (EW : wire_bytes w' = firstn m (wire_bytes w) ++ pad).
  { unfold wire_bytes, w'. cbn [w_header w_body]. rewrite firstn_app, LE, (firstn_all2 (encode_header _)) by (rewrite LE; lia). rewrite <- app_assoc. reflexivity. }
  assert (LW : length (wire_bytes w') = n) by (rewrite EW, app_length, firstn_length, Lpad; fold n; lia).
  assert (OW : wire_ok w').
  { split; [exact HW1|]. split; [|cbn [w' w_body w_header]; rewrite <- HW3; f_equal; rewrite app_length, firstn_length, Lpad; lia].
    cbn [w' w_body]. apply Forall_app. split; [apply bytes_ok_firstn; exact HW2|apply Bz, B0]. }
  set (frm' := aos_frame scid v c sg iz spare 0 (wire_bytes w') tr').
  assert (EF : z 0 blk' = frm').
  { rewrite EZ', EP, app_assoc. unfold frm', aos_frame. rewrite EW. rewrite !app_assoc. f_equal. f_equal. unfold frm, aos_frame.
    set (hd := aos_header scid v c sg ++ iz ++ [(spare * 8 + N.of_nat 0 / 256)%N; (N.of_nat 0 mod 256)%N]).
    assert (LH : length hd = 8 + length iz) by (unfold hd; rewrite !app_length, aos_header_length; cbn [length]; lia).
    replace (aos_header scid v c sg ++ iz ++ [(spare * 8 + N.of_nat 0 / 256)%N; (N.of_nat 0 mod 256)%N] ++ wire_bytes w ++ tr) with (hd ++ wire_bytes w ++ tr) by (unfold hd; rewrite <- !app_assoc; reflexivity).
    replace ((aos_header scid v c sg ++ iz) ++ [(spare * 8 + N.of_nat 0 / 256)%N; (N.of_nat 0 mod 256)%N]) with hd by (unfold hd; rewrite <- !app_assoc; reflexivity).
    unfold K. rewrite firstn_app, firstn_all2 by lia. f_equal. rewrite LH. replace (8 + length iz + m - (8 + length iz)) with m by lia. apply firstn_app_le. fold n. lia. }
  assert (LF' : length frm' = length frm) by (rewrite <- EF, Lz; unfold blk'; rewrite app_length, firstn_length, repeat_length; unfold K; lia).
  assert (Bb' : bytes_ok blk') by (unfold blk'; apply Forall_app; split; [apply bytes_ok_firstn; exact Bb|apply B0]).
  assert (Bf' : bytes_ok frm') by (rewrite <- EF; apply Bz; exact Bb').
  assert (RA : if pl_derandomize p then randomized frm' blk' else blk' = frm').
  { unfold z in EF. destruct (pl_derandomize p); [|exact EF]. rewrite <- EF. rewrite <- (derand_involution blk' 0) at 2. apply randomized_derandomize. apply derand_bytes_ok. exact Bb'. }
  (* the padded unit, as if it had been sent *)
  set (ws := fun v0 => if (v0 =? v)%N then [w'] else []). set (us := [(mkSent v frm' blk', Arrives)]).
  assert (LK : link (length iz) (length tr) k p ws us (fun v0 => if (v0 =? v)%N then c else 0%N) (fun _ => 0) (fun v0 => if (v0 =? v)%N then n else 0)).
  { split; [intro v0; unfold ws; destruct (v0 =? v)%N; repeat constructor; apply OW|]. split; [intro v0; unfold ws; destruct (v0 =? v)%N; repeat constructor; apply HT|].
    rewrite HR. split; [exact I|]. split; [rewrite HL, LF; lia|]. split; [|split].
    - constructor; [|constructor]. split; [cbn; lia|]. right. exists frm'. cbn [fst snd s_block]. split; [exact Bf'|]. split; [exact Bb'|].
      split; [rewrite HL; unfold blk'; rewrite app_length, firstn_length, repeat_length; unfold K; lia|]. split; [exact RA|].
      unfold arrives. cbn [s_vcid s_frame]. destruct (N.eqb_spec v 63); [lia|]. rewrite HR. reflexivity.
    - constructor; [|constructor]. intros _. cbn [fst s_frame]. rewrite LF', LF. lia.
    - intros v0 Hv0. unfold channel, us, ws, on_channel. cbn [filter fst s_vcid]. rewrite (N.eqb_sym v v0). destruct (N.eqb_spec v0 v) as [->|NE]; [|constructor].
      cbn [map fst s_frame]. unfold frm'.
      assert (ES : wire_bytes w' = firstn n (skipn 0 (stream [w']))) by (cbn [skipn]; unfold stream; cbn [map concat]; rewrite app_nil_r, firstn_all2 by lia; reflexivity).
      rewrite ES. apply sends_cons; try assumption; try reflexivity; try (rewrite Ltr; reflexivity); try lia.
      + unfold tr'. apply Bz, B0.
      + unfold stream. cbn [map concat]. rewrite app_nil_r. lia.
      + left. exists 0. split; [exists w'; left; reflexivity|]. split; [lia|]. split; [intros; lia|reflexivity].
      + constructor. }
  assert (AIR : sync_run ASM (pl_block_length p) (bits (ASM ++ firstn K blk)) 0 0 [Ok (mkBlock 0 (loc_at 32) blk')]).
  { assert (E := run_truncated_aligned ASM (pl_block_length p) (bits (ASM ++ firstn K blk)) 0 0 0 32 blk'). cbn [Nat.eqb] in E. apply E; clear E.
    - rewrite bits_app. assert (X := marker_next [] [] (bits (firstn K blk))). cbn [app length] in X. apply X. intros q _ Q. apply occurs_bound in Q; [|discriminate]. cbn in Q. lia.
    - reflexivity.
    - rewrite bits_length, app_length, firstn_length. change (length ASM) with 4. unfold K. lia.
    - reflexivity.
    - exact Bb'.
    - unfold blk'. rewrite app_length, firstn_length, repeat_length. unfold K. lia.
    - rewrite (bits_app ASM). change 32 with (length (bits ASM)) at 1. rewrite skipn_app_exact. unfold blk'. rewrite bits_app, bits_zeros. f_equal. f_equal.
      rewrite app_length, !bits_length, firstn_length. change (length ASM) with 4. unfold K. lia. }
  destruct (link_frames (length iz) (length tr) ovf k p ws us _ _ _ ltac:(congruence) LK [mkBlock 0 (loc_at 32) blk'] eq_refl) as (fs & out & cs & Y & LFs & D & (R1 & R2 & R3 & R4 & R5) & YP & _).
  rewrite HR in D. destruct fs as [|f [|]]; try discriminate LFs. inversion D as [|? f' ? ? E1 E2]; subst. inversion E2; subst. cbn [done_by] in E1. subst f'. clear D E2.
  destruct cs as [|c0 [|]]; try discriminate R4. cbn [map filter us turned_up snd not_lost fst s_vcid] in R1. injection R1 as R1.
  specialize (R5 v B2). specialize (R3 v B2). unfold channel, us, on_channel in R5, R3. cbn [filter fst s_vcid] in R5, R3. rewrite N.eqb_refl in R5, R3.
  assert (IC : is_chan v f = true) by (unfold is_chan, chan; rewrite R1; apply N.eqb_refl).
  cbn [combine filter fst snd map concat] in R5. rewrite IC in R5. cbn [map snd concat] in R5. rewrite app_nil_r in R5. cbn [filter map] in R3. rewrite IC in R3. cbn [map snd gaps_of] in R3. injection R3 as R3.
  assert (EC0 : c0 = [pk w']).
  { rewrite R5. unfold ws. rewrite N.eqb_refl. cbn [with_pos filter]. replace (whole _ (0, w')) with true; [reflexivity|]. symmetry. unfold whole. cbn [fst snd]. apply forallb_forall.
    intros y Iy. apply in_seq in Iy. unfold sizes. cbn [map fst snd s_frame arrived]. assert (RM : room (length iz) (length tr) frm' = n) by (unfold room; rewrite LF', LF; lia). rewrite RM.
    replace (0 <=? y) with true by (symmetry; apply Nat.leb_le; lia). replace (y <? 0 + n) with true by (symmetry; apply Nat.ltb_lt; lia). reflexivity. }
  clear R5. subst c0. cbn [concat app] in YP. exists f, (wire_bytes w'). split.
  { eapply start_intro with (items := [Ok (mkBlock 0 (loc_at 32) blk')]).
    - apply (sync_iff ASM (pl_block_length p) _ (ASM ++ firstn K blk) _ ltac:(repeat constructor) ltac:(discriminate)).
      + apply Forall_app. split; [repeat constructor|apply bytes_ok_firstn; exact Bb].
      + apply delivers_file. discriminate.
      + exact AIR.
    - reflexivity.
    - left. exact Y.
    - rewrite HR. reflexivity. }
  destruct (C33_frames ovf _ _ Y) as [C33 _]. destruct (C33 0 f eq_refl) as (b & _ & _ & _ & FI & _).
  split; [exact FI|]. split; [exact R3|]. split; [exact YP|]. split; [exact LW|]. split.
  - rewrite EW, firstn_app, firstn_firstn, Nat.min_id, firstn_length. fold n. replace (m - Nat.min m n) with 0 by lia. cbn [firstn]. apply app_nil_r.
  - intros i Hi. rewrite LW in Hi. rewrite EW, bits_app, app_nth2; rewrite bits_length, firstn_length; fold n; [|lia]. replace (Nat.min m n) with m by lia.
    unfold pad, z. destruct (pl_derandomize p).
    + rewrite derand_bits by (rewrite repeat_length; lia). rewrite bits_zeros, nth_repeat. unfold K. rewrite xorb_false_l. f_equal. lia.
    + rewrite bits_zeros. apply nth_repeat.
Qed.
Print Assumptions C83_cut_file_refuted.

(* ---- the hypotheses are met ---- *)
Definition lx_c (v : N) : N := (if (v =? 3)%N then 9 else if (v =? 5)%N then 100 else 0)%N.
Definition lx_e (v : N) : nat := if (v =? 3)%N then 45 else if (v =? 5)%N then 45 else 0.
Lemma lx_link : link 0 0 lx_codec ex_pl lx_pkts lx_us lx_c (fun _ => 0) lx_e.
Proof.
  split; [intro v; unfold lx_pkts; destruct (v =? 3)%N; [|destruct (v =? 5)%N]; repeat constructor; bytes_tac|].
  split; [intro v; unfold lx_pkts; destruct (v =? 3)%N; [|destruct (v =? 5)%N]; repeat constructor|].
  split; [cbn; lia|]. split; [cbn; lia|]. split; [|split].
  - repeat apply Forall_cons; try apply Forall_nil;
      first [ split; [reflexivity|left; reflexivity] | apply lx_reaches; try reflexivity; try (intro; discriminate); try (split; intro; discriminate); try (split; reflexivity); try bytes_tac ].
    intros _. eexists. unfold ex_frm, aos_frame. reflexivity.
  - repeat apply Forall_cons; try apply Forall_nil; intros _; cbn; lia.
  - intros v Hv. destruct (N.eqb_spec v 3) as [->|N3]; [|destruct (N.eqb_spec v 5) as [->|N5]].
    + apply (lx_sends 3 [(0, 0); (1, 0); (2, 0)] 0 9); [|reflexivity|reflexivity].
      intros j ptr I. cbn [In] in I. split; [replace ptr with 0 by (intuition congruence); apply lx_ptr0; left; split; [reflexivity|] |change (length (stream (lx_pkts 3))) with 45];
        decompose [or False] I; match goal with X : (_, _) = _ |- _ => injection X as <- <- end; lia.
    + apply (lx_sends 5 [(0, 0); (1, 2047); (2, 0)] 0 100); [|reflexivity|reflexivity].
      intros j ptr I. cbn [In] in I. split; [|change (length (stream (lx_pkts 5))) with 45; decompose [or False] I; match goal with X : (_, _) = _ |- _ => injection X as <- <- end; lia].
      destruct I as [I|[I|[I|[]]]]; injection I as <- <-; [apply (lx_ptr0 5 0)|apply lx_ptr_none|apply (lx_ptr0 5 2)]; auto.
    + replace (channel v lx_us) with (@nil (sent * fate)).
      2:{ unfold lx_us, channel, on_channel. cbn [filter lx_unit s_vcid fst]. destruct (N.eqb_spec 3 v) as [E3|_]; [destruct (N3 (eq_sym E3))|]. destruct (N.eqb_spec 5 v) as [E5|_]; [destruct (N5 (eq_sym E5))|]. destruct (N.eqb_spec 63 v); [lia|reflexivity]. }
      unfold lx_e. destruct (N.eqb_spec v 3); [contradiction|]. destruct (N.eqb_spec v 5); [contradiction|]. constructor.
Qed.
Lemma lx_heard : heard lx_us (bits lx_stream) [].
Proof.
  exists lx_air. split; [vm_compute; reflexivity|]. split; [reflexivity|]. repeat apply Forall_cons; try apply Forall_nil; apply short_no_more; cbn; lia.
Qed.
(* the file of C75_ex, cut at any byte *)
Example C83_ex_file : forall n, 0 < n -> exists us1 us2, lx_us = us1 ++ us2 /\
  (exists out, pipeline_start true lx_codec 2 ex_pl (reader_of (firstn n lx_stream)) out) /\
  forall out, pipeline_start true lx_codec 2 ex_pl (reader_of (firstn n lx_stream)) out ->
    exists main extra cs, out = main ++ extra /\ length extra <= 1 /\ received 0 0 lx_pkts us1 (fun _ => 0) main cs.
Proof.
  intros n Hn. destruct (C83_any_cut _ _ _ _ _ _ _ _ _ _ _ (8 * n) lx_link lx_heard (short_no_more [] ltac:(cbn; lia))) as (us1 & us2 & e1 & part & EU & L1 & H1 & U1).
  rewrite <- bits_firstn in H1. exists us1, us2. split; [exact EU|].
  assert (HB : bytes_ok (firstn n lx_stream)) by (apply bytes_ok_firstn; vm_compute; bytes_tac).
  assert (HD : delivers (reader_of (firstn n lx_stream)) (firstn n lx_stream)) by (apply delivers_file; destruct n; [lia|discriminate]).
  split.
  - eapply C83_cut_file_returns; try eassumption; [intros _; exact lx_codec_ok|lia|right; discriminate|]. intros o E. injection E as <-. reflexivity.
  - intros out PS. destruct (C83_cut_file _ _ true lx_codec 2 ex_pl _ _ _ _ _ _ _ _ L1 (fun _ => lx_codec_ok) HB HD H1 U1 out PS) as (main & extra & cs & E1 & E2 & _ & _ & X).
    exists main, extra, cs. split; [exact E1|]. split; [|exact E2]. destruct X as [->|(f & _ & _ & _ & _ & -> & _)]; cbn; lia.
Qed.
Lemma one_read : forall l, l <> [] -> vtranscript [EvData l] = map TByte l.
Proof. intros [|x l] H; [contradiction|]. cbn. rewrite app_nil_r. reflexivity. Qed.
(* the same bytes from a device that then fails *)
Example C83_ex_device : forall n, 0 < n -> exists us1 us2, lx_us = us1 ++ us2 /\
  exists s cs, start_rs_live true lx_codec 2 ex_pl (mkRsOpts 1 200 2 3 true true) (mkReader [EvData (firstn n lx_stream)] (Failing 5)) s /\
    received 0 0 lx_pkts us1 (fun _ => 0) (st_recv s) cs.
Proof.
  intros n Hn. destruct (C83_any_cut _ _ _ _ _ _ _ _ _ _ _ (8 * n) lx_link lx_heard (short_no_more [] ltac:(cbn; lia))) as (us1 & us2 & e1 & part & EU & L1 & H1 & U1).
  rewrite <- bits_firstn in H1. exists us1, us2. split; [exact EU|].
  assert (HB : bytes_ok (firstn n lx_stream)) by (apply bytes_ok_firstn; vm_compute; bytes_tac).
  assert (V : vtranscript [EvData (firstn n lx_stream)] = map TByte (firstn n lx_stream)) by (apply one_read; destruct n; [lia|discriminate]).
  destruct (C83_failing_link_rs _ _ true lx_codec 2 ex_pl _ _ _ _ _ _ (mkReader [EvData (firstn n lx_stream)] (Failing 5)) _ part _ L1 eq_refl lx_codec_ok ltac:(lia) HB V eq_refl H1 U1) as (_ & s & cs & S1 & S2 & _).
  exists s, cs. auto.
Qed.
(* without Reed-Solomon: the second of three units is lost, and the device fails in the third *)
Definition nx_unit (i : nat) : sent := mkSent 3 (ex_frm 3 (9 + N.of_nat i) 0 (lx_part 3 i)) (ex_frm 3 (9 + N.of_nat i) 0 (lx_part 3 i)).
Definition nx_us : list (sent * fate) := [(nx_unit 0, Arrives); (nx_unit 1, Lost)].
Definition nx_bytes : list N := (ASM ++ s_block (nx_unit 0) ++ [0; 0; 0] ++ ASM ++ firstn 20 (s_block (nx_unit 2)))%N.
Definition nx_pl : pipeline := pipeline_without_derandomization (pipeline_new 23).
Lemma nx_link : forall k, link 0 0 k nx_pl (fun v => if (v =? 3)%N then lx_pkts 3 else []) nx_us lx_c (fun _ => 0) (fun v => if (v =? 3)%N then 30 else 0).
Proof.
  intro k. split; [intro v; destruct (v =? 3)%N; repeat constructor; bytes_tac|]. split; [intro v; destruct (v =? 3)%N; repeat constructor|]. split; [exact I|]. split; [cbn; lia|].
  split; [|split; [repeat apply Forall_cons; try apply Forall_nil; intros _; cbn; lia|]].
  - apply Forall_cons; [|apply Forall_cons; [split; [reflexivity|left; reflexivity]|apply Forall_nil]].
    split; [reflexivity|]. right. exists (s_frame (nx_unit 0)). split; [vm_compute; bytes_tac|]. split; [vm_compute; bytes_tac|]. split; [reflexivity|]. split; [reflexivity|]. reflexivity.
  - intros v Hv. destruct (N.eqb_spec v 3) as [->|N3].
    + apply (lx_sends 3 [(0, 0); (1, 0)] 0 9); [|reflexivity|reflexivity]. intros j ptr I. cbn [In] in I.
      split; [replace ptr with 0 by (intuition congruence); apply lx_ptr0; left; split; [reflexivity|]|change (length (stream (lx_pkts 3))) with 45];
        decompose [or False] I; match goal with X : (_, _) = _ |- _ => injection X as <- <- end; lia.
    + replace (channel v nx_us) with (@nil (sent * fate)); [constructor|]. unfold nx_us, channel, on_channel. cbn [filter nx_unit s_vcid fst]. destruct (N.eqb_spec 3 v); [congruence|reflexivity].
Qed.
Example C83_ex_no_rs : exists out,
  (* the frame of the first unit and its packet, and then the caller waits *)
  pulls (frames_live true false) (frames_new (mkReader [EvData nx_bytes] (Failing 5)) 23) out Forever /\
  map (fun f => v_vcid (f_header f)) out = [3%N] /\
  pulls (unpack_next 0 0 (frames_live true false)) (unpack_new (frames_new (mkReader [EvData nx_bytes] (Failing 5)) 23)) [pk (ex_pkt 5 9)] Forever.
Proof.
  destruct (C83_failing_link 0 0 true ok_codec nx_pl _ _ _ _ _ (mkReader [EvData nx_bytes] (Failing 5)) nx_bytes (bits ([0; 0; 0]%N ++ ASM ++ firstn 20 (s_block (nx_unit 2)))) 5 (nx_link ok_codec) eq_refl) as (out & cs & (R1 & _ & _ & R4 & R5) & P1 & P2).
  - vm_compute. bytes_tac.
  - reflexivity.
  - reflexivity.
  - exists [([], s_block (nx_unit 0))]. split; [vm_compute; reflexivity|]. split; [reflexivity|]. constructor; [|constructor]. apply short_no_more. cbn. lia.
  - right. exists (bits [0; 0; 0]%N), (bits (firstn 20 (s_block (nx_unit 2)))). split; [rewrite !bits_app; reflexivity|]. split; [apply short_no_more; cbn; lia|]. vm_compute. lia.
  - exists out. split; [exact P1|]. split; [exact R1|]. cbn in R1. destruct out as [|f [|]]; try discriminate. destruct cs as [|c0 [|]]; try discriminate R4.
    injection R1 as R1. specialize (R5 3%N eq_refl). cbn [combine filter fst] in R5. unfold is_chan, chan in R5. rewrite R1 in R5. cbn [N.eqb Pos.eqb map snd concat] in R5. rewrite app_nil_r in R5.
    cbn [concat] in P2. rewrite app_nil_r, R5 in P2. exact P2.
Qed.
(* a packet of 15 bytes of which 10 are in the file: the caller is given another packet *)
Example C83_ex_made_up : forall k, exists f d,
  pipeline_start true k 2 nx_pl (reader_of (ASM ++ firstn 18 (ex_frm 3 9 0 (wire_bytes (ex_pkt 5 9))))) [f] /\
  yields (fpiter_next 0 0) (packet_decoder [f]) [mkPacket (w_header (ex_pkt 5 9)) d 0] /\ d <> wire_bytes (ex_pkt 5 9).
Proof.
  intro k. assert (W : wire_ok (ex_pkt 5 9)) by (split; [|split; [bytes_tac|reflexivity]]; repeat split; reflexivity).
  destruct (C83_cut_file_refuted true k 2 nx_pl (ex_pkt 5 9) 157 3 9 0 [] 0 [] 10 (ex_frm 3 9 0 (wire_bytes (ex_pkt 5 9)))) as (f & d & P & _ & _ & Y & LD & FD & PD); try reflexivity; try exact W; try (constructor; fail); try (cbn; lia); [split; reflexivity|].
  exists f, d. split; [exact P|]. split; [exact Y|]. intro E. specialize (PD 80). rewrite E in PD. specialize (PD ltac:(cbn; lia)). discriminate.
Qed.
