(* Property C93: the decoding shown in the library's documentation *)
From Verif Require Import Base S_Bits S_Packet S_Pn S_Sync S_Frame S_FramePackets S_ReedSolomon S_Pipeline S_Cli
  M_Reader M_Packet M_Bytes M_Sync M_Pn M_Frame M_FramePackets M_ReedSolomon M_RsPipeline M_Pipeline M_Doc
  L_Base L_Bits L_Packet L_Pn L_Frame L_FramePackets L_FramePackets2 L_ReedSolomon L_RsPipeline L_Pipeline L_Sync L_SyncBits L_SyncRun L_SyncIter L_SyncSafe L_SyncFail
  P_Pn P_Sync P_FramePackets P_ReedSolomon P_RsPipeline P_Pipeline P_Loss P_Cut.
Open Scope nat_scope.

(* a frame the check accepted *)
Definition accepted (f : frame) : Prop := f_integrity f = Some IOk \/ f_integrity f = Some ICorrected.
Lemma doc_filter_accepted : forall f, doc_filter f = true <-> accepted f.
Proof.
  intro f. unfold doc_filter, accepted. destruct (f_integrity f) as [[]|]; cbn; split; auto; try discriminate; intros [X|X]; discriminate.
Qed.

Lemma kept_filter : forall A (P : A -> Prop) (b : A -> bool), (forall x, b x = true <-> P x) -> forall l, kept P l (filter b l).
Proof.
  intros A P b H l. induction l as [|x l IH]; cbn [filter]; [constructor|]. destruct (b x) eqn:E.
  - constructor; [apply H; exact E|exact IH].
  - apply kept_no; [rewrite <- H; congruence|exact IH].
Qed.
Lemma kept_unique : forall A (P : A -> Prop) l k k', kept P l k -> kept P l k' -> k = k'.
Proof. intros A P l k k' H. revert k'. induction H; intros k' H'; inversion H'; subst; try contradiction; f_equal; auto. Qed.

(* ---- the blocks ---- *)
Lemma ok_next_less : forall asm len s b s', asm <> [] -> binv asm len s -> biter_next s = Val (Some (Ok b), s') ->
  binv asm len s' /\ mu s' < mu s.
Proof.
  intros asm len s b s' Hn G E. destruct (next_safe asm len Hn s G) as (o & s2 & E0 & G' & _). rewrite E in E0. injection E0 as <- <-.
  split; [exact G'|]. destruct G as [G HL]. unfold biter_next in E.
  destruct (scan_safe_top asm len Hn _ G) as (res & s1 & E1 & G1 & C1 & F1 & R). rewrite E1 in E. cbn [obind] in E.
  assert (I1 := i_idx _ _ _ G1). assert (I0 := i_idx _ _ _ G).
  destruct res as [l| |k|]; try contradiction; [|discriminate|discriminate].
  destruct R as (R1 & R2 & R3 & R4).
  destruct (if bi_last s =? 0 then Val 0 else usub (l_offset l) (bi_last s)) as [last|]; cbn [obind] in E; [|discriminate].
  destruct (block_safe asm len Hn s1 G1 R4) as (br & s2 & E2 & G2 & C2 & F2 & I2 & V2 & D2). rewrite E2 in E. cbn [obind] in E.
  destruct br as [data|e]; [|discriminate]. injection E as _ <-. unfold mu. cbn [bi_sync]. lia.
Qed.
(* the items up to the first error *)
Inductive until_error : biter -> list block -> Prop :=
| until_end : forall s s', biter_next s = Val (None, s') -> until_error s []
| until_stop : forall s e s', biter_next s = Val (Some (Err e), s') -> until_error s []
| until_more : forall s b s' l, biter_next s = Val (Some (Ok b), s') -> until_error s' l -> until_error s (b :: l).
Lemma while_iff : forall l s, yields while_next s l <-> until_error s l.
Proof.
  split.
  - intro Y. induction Y as [s s' E|s s' a l E _ IH]; unfold while_next in E; destruct (biter_next s) as [[[[b|e]|] s1]|] eqn:N; cbn [obind] in E; try discriminate.
    + eapply until_stop; exact N.
    + eapply until_end; exact N.
    + injection E as <- <-. eapply until_more; eassumption.
  - intro U. induction U as [s s' E|s e s' E|s b s' l E _ IH].
    + eapply yields_nil with (s' := s'). unfold while_next. rewrite E. reflexivity.
    + eapply yields_nil with (s' := s'). unfold while_next. rewrite E. reflexivity.
    + eapply yields_cons; [|exact IH]. unfold while_next. rewrite E. reflexivity.
Qed.
Lemma while_ends : forall asm len n s, asm <> [] -> mu s <= n -> binv asm len s ->
  exists l s', yields while_next s l /\ drawn s l s' /\ forall b s2, biter_next s' <> Val (Some (Ok b), s2).
Proof.
  intros asm len. induction n as [n IH] using lt_wf_ind; intros s Hn HM G.
  destruct (next_safe asm len Hn s G) as (o & s1 & E & G1 & _).
  destruct o as [[b|e]|].
  - destruct (ok_next_less asm len s b s1 Hn G E) as [_ M]. destruct (IH (mu s1) ltac:(lia) s1 Hn (le_n _) G1) as (l & s' & Y & D & X).
    exists (b :: l), s'. split; [eapply yields_cons; [|exact Y]; unfold while_next; rewrite E; reflexivity|]. split; [|exact X].
    apply drawn_cons with (fuel := 1) (s' := s1); [|exact D]. unfold blocks_next. cbn [filter_ok_next]. rewrite E. reflexivity.
  - exists [], s. split; [eapply yields_nil with (s' := s1); unfold while_next; rewrite E; reflexivity|]. split; [constructor|]. intros b s2 X. congruence.
  - exists [], s. split; [eapply yields_nil with (s' := s1); unfold while_next; rewrite E; reflexivity|]. split; [constructor|]. intros b s2 X. congruence.
Qed.

(* The blocks end for every reader, also for one that goes on failing for ever (where the pipeline's own
   iterator does not return, C55): they are the blocks found before the first error or the end. *)
Theorem C93_blocks_end : forall asm len r, asm <> [] ->
  exists blocks s', yields while_next (synchronize r asm len) blocks /\
    drawn (synchronize r asm len) blocks s' /\ forall b s2, biter_next s' <> Val (Some (Ok b), s2).
Proof. intros asm len r Hn. exact (while_ends asm len _ _ Hn (le_n _) (binv_start asm len Hn r)). Qed.
Print Assumptions C93_blocks_end.

Lemma fdec_data : forall ovf cs m l, yields (fdec_next ovf) (mkFdec m cs) l \/ panics_after (fdec_next ovf) (mkFdec m cs) l ->
  forall g, In g l -> exists b, In b cs /\ f_data g = bl_data b.
Proof.
  intro ovf. induction cs as [|x cs IH]; intros m l Z g I.
  - destruct Z as [Z|Z]; inversion Z; subst; try discriminate. destruct I.
  - assert (ONE : forall h s', fdec_next ovf (mkFdec m (x :: cs)) = Val (Some h, s') -> f_data h = bl_data x /\ exists m', s' = mkFdec m' cs).
    { intros h s' E. unfold fdec_next in E. cbn [fd_cadus fd_counters] in E. destruct (vcdu_decode (bl_data x)) as [[hd|]|]; cbn [obind] in E; try discriminate.
      destruct (if negb (v_vcid hd =? VCID_FILL)%N then _ else _); cbn [obind] in E; [|discriminate]. injection E as <- <-. cbn. eauto. }
    destruct Z as [Z|Z]; [inversion Z as [? s2 E|? s2 f2 l2 E Z2]|inversion Z as [? E|? s2 f2 l2 E Z2]]; subst; try (destruct I; fail);
      destruct (ONE _ _ E) as [D1 [m' ->]]; (destruct I as [<-|I]; [exists x; split; [left; reflexivity|exact D1]|]);
      destruct (IH m' l2 ltac:(auto) g I) as (b & I2 & E2); exists b; (split; [right; exact I2|exact E2]).
Qed.
Lemma while_lengths : forall asm len s l, asm <> [] -> binv asm len s -> yields while_next s l -> Forall (fun b => length (bl_data b) = len) l.
Proof.
  intros asm len s l Hn G Y. apply while_iff in Y. induction Y as [s s' E|s e s' E|s b s' l E _ IH]; [constructor|constructor|].
  destruct (next_safe asm len Hn s G) as (o & s2 & E0 & G' & _ & L & _). rewrite E in E0. injection E0 as <- <-.
  constructor; [apply L; reflexivity|apply IH; exact G'].
Qed.
(* With the block length that belongs to the options the whole chain ends, for every reader. *)
Theorem C93_ends : forall ovf k nthreads len o r, 1 <= nthreads -> codec_ok k ->
  1 <= ro_interleave o -> len + ro_virtual_fill o = 255 * ro_interleave o -> ro_virtual_fill o <= 223 * ro_interleave o ->
  exists out, recipe ovf k nthreads len o r out.
Proof.
  intros ovf k nt len o r NT HK HI HL HV.
  destruct (C93_blocks_end ASM len r ltac:(discriminate)) as (blocks & s' & Y & _ & _).
  assert (LB := while_lengths ASM len _ _ ltac:(discriminate) (binv_start ASM len ltac:(discriminate) r) Y).
  assert (DF : exists frames, decoded_frames ovf (Some o) (derandomize blocks) frames).
  { destruct (yields_or_panics ovf (derandomize blocks) []) as [[frames F]|[frames F]]; exists frames; [left; exact F|right; split; [discriminate|exact F]]. }
  destruct DF as [frames DF].
  assert (FJ : forall f, In f frames -> rs_job k (rs_of_opts o) f <> Panic).
  { intros f I. unfold rs_job. destruct (negb _); [|discriminate].
    assert (LD : length (f_data f) = len).
    { destruct (fdec_data ovf (derandomize blocks) [] frames ltac:(destruct DF as [DF|[_ DF]]; auto) f I) as (b & I2 & ->).
      apply in_map_iff in I2. destruct I2 as (b0 & <- & I2). cbn [derandomize_cadu bl_data]. rewrite (proj1 (C30_derandomize_length_bytes _)).
      rewrite Forall_forall in LB. apply LB, I2. }
    destruct (perform k (rs_of_opts o) (f_data f)) as [[[i d]|er]|] eqn:EP; cbn [obind]; try discriminate.
    - exfalso. apply (proj1 (C42_error_iff k (rs_of_opts o) (f_data f) HK HI eq_refl HV)); [exists er; exact EP|].
      rewrite LD. exact HL.
    - exfalso. destruct (proj1 (C42_panic_exact k (rs_of_opts o) (f_data f) HK HI eq_refl) EP) as (_ & _ & X & _).
      change (rs_virtual_fill (rs_of_opts o)) with (ro_virtual_fill o) in X. change (rs_interleave (rs_of_opts o)) with (ro_interleave o) in X. lia. }
  destruct (C46_can_finish _ (rs_job k (rs_of_opts o)) (ro_buffer_size o) nt frames (init frames) NT FJ) as (ls & s2 & E1 & _ & E2 & _); [exists []; constructor|discriminate|].
  exists (filter doc_filter (st_recv s2)). eapply recipe_intro; [exact Y|exact DF|exists ls; exact E1|exact E2].
Qed.
Print Assumptions C93_ends.

(* ---- compared with the pipeline ---- *)
Lemma items_until : forall s items, yields biter_next s items -> (forall before e after, items = before ++ Err e :: after -> after = []) ->
  until_error s (oks items).
Proof.
  intros s items Y. induction Y as [s s' E|s s' a l E Y IH]; intro H; [eapply until_end; exact E|]. destruct a as [b|e].
  - cbn [oks]. eapply until_more; [exact E|]. apply IH. intros before e after X. apply (H (Ok b :: before) e after). rewrite X. reflexivity.
  - rewrite (H [] e l eq_refl). cbn [oks]. eapply until_stop; exact E.
Qed.
(* For a stream of any bytes, arriving in any pieces: what the documented chain delivers is what the
   pipeline with the same options delivers, without the frames that were not accepted - the damaged ones
   and the fill frames - for any number of threads and any schedules. *)
Theorem C93_same_frames : forall ovf k nthreads len o r bs out,
  bytes_ok bs -> delivers r bs ->
  (recipe ovf k nthreads len o r out <->
   exists full, pipeline_start ovf k nthreads (pipeline_with_rs (pipeline_new len) o) r full /\ kept accepted full out).
Proof.
  intros ovf k nt len o r bs out Hb HD.
  assert (W : forall items, yields biter_next (synchronize r ASM len) items -> yields while_next (synchronize r ASM len) (oks items)).
  { intros items Y. apply while_iff, items_until; [exact Y|]. intros before e after EQ.
    destruct (C27_nothing_after ASM len r bs items before (Err e) after) as [X _]; try assumption; [unfold ASM; repeat constructor|discriminate|].
    apply (X e eq_refl). }
  split.
  - intros [blocks frames s Y DF R E].
    destruct (C28_terminates ASM len r ltac:(discriminate) (proj2 HD)) as (items & YI & _).
    assert (blocks = oks items) by (eapply yields_det; [exact Y|apply W; exact YI]). subst blocks.
    exists (st_recv s). split; [|apply kept_filter, doc_filter_accepted].
    eapply start_intro; [exact YI|reflexivity|exact DF|]. cbn. exists s. auto.
  - intros (full & P & K). inversion P as [items blocks frames out' YI EB DF RS]; subst.
    cbn [pipeline_with_rs pipeline_new pl_rs pl_derandomize pl_block_length] in *. destruct RS as (s & R & E & <-).
    rewrite (kept_unique _ _ _ _ _ K (kept_filter _ accepted doc_filter doc_filter_accepted (st_recv s))).
    eapply recipe_intro; [apply W; exact YI|exact DF|exact R|exact E].
Qed.
Print Assumptions C93_same_frames.

(* ---- which frames are kept ---- *)
Lemma perform_loop_kinds : forall k c dat ms idx corr num i d, perform_loop k c dat idx ms corr num = Val (inl (i, d)) -> i = INotCorrected \/ i = IUncorrectable.
Proof.
  intros k c dat. induction ms as [|m ms IH]; intros idx corr num i d H; cbn [perform_loop] in H; [discriminate|].
  destruct (negb (rs_correct c) && has_errors k m); [injection H as <- _; auto|].
  destruct (correct_message k m) as [st om]. destruct st as [| |n].
  - destruct om as [x|]; [|discriminate]. destruct (write_message _ _ _ _ _); cbn [obind] in H; [eapply IH; exact H|discriminate].
  - destruct (remove_parity c dat); cbn [obind] in H; [injection H as <- _; auto|discriminate].
  - destruct om as [x|]; [|discriminate]. destruct (write_message _ _ _ _ _); cbn [obind] in H; [eapply IH; exact H|discriminate].
Qed.
Lemma perform_kinds : forall k c dat i d, perform k c dat = Val (Ok (i, d)) -> i <> IFailed.
Proof.
  intros k c dat i d H. unfold perform in H. destruct (negb _); [discriminate|]. destruct (deinterleave _ _) as [ms|]; [|discriminate]. cbn [obind] in H.
  destruct (perform_loop _ _ _ _ _ _ _) as [[[i0 d0]|[corr num]]|] eqn:E; cbn [obind] in H; try discriminate.
  - injection H as <- _. destruct (perform_loop_kinds _ _ _ _ _ _ _ _ _ E) as [-> | ->]; discriminate.
  - destruct (if rs_remove_parity c then _ else _); cbn [obind] in H; [|discriminate]. destruct (slice_from _ _); cbn [obind] in H; [|discriminate].
    injection H as <- _. destruct (num =? 0); discriminate.
Qed.
Lemma fdec_unchecked : forall ovf cs m l, yields (fdec_next ovf) (mkFdec m cs) l \/ panics_after (fdec_next ovf) (mkFdec m cs) l ->
  forall g, In g l -> f_integrity g = None.
Proof.
  intro ovf. induction cs as [|x cs IH]; intros m l Z g I.
  - destruct Z as [Z|Z]; inversion Z; subst; try discriminate. destruct I.
  - assert (ONE : forall h s', fdec_next ovf (mkFdec m (x :: cs)) = Val (Some h, s') -> f_integrity h = None /\ exists m', s' = mkFdec m' cs).
    { intros h s' E. unfold fdec_next in E. cbn [fd_cadus fd_counters] in E. destruct (vcdu_decode (bl_data x)) as [[hd|]|]; cbn [obind] in E; try discriminate.
      destruct (if negb (v_vcid hd =? VCID_FILL)%N then _ else _); cbn [obind] in E; [|discriminate]. injection E as <- <-. cbn. eauto. }
    destruct Z as [Z|Z]; [inversion Z as [? s2 E|? s2 f2 l2 E Z2]|inversion Z as [? E|? s2 f2 l2 E Z2]]; subst; try (destruct I; fail);
      destruct (ONE _ _ E) as [D1 [m' ->]]; (destruct I as [<-|I]; [exact D1|]);
      eapply (IH m' l2); eauto.
Qed.
(* Of the frames the pipeline delivers, the chain keeps exactly those that are neither fill nor flagged
   as uncorrectable or not corrected. *)
Theorem C93_kept_exactly : forall ovf k nthreads len o r full f,
  pipeline_start ovf k nthreads (pipeline_with_rs (pipeline_new len) o) r full -> In f full ->
  (accepted f <-> v_vcid (f_header f) <> 63%N /\ ~ bad_frame f).
Proof.
  intros ovf k nt len o r full f P I. inversion P as [items blocks frames out' YI EB DF RS]; subst.
  cbn [pipeline_with_rs pipeline_new pl_rs pl_derandomize pl_block_length] in *. destruct RS as (s & R & E & <-).
  assert (F2 := ended_all _ _ _ _ _ _ R E). 
  assert (X : exists g, In g frames /\ rs_job k (rs_of_opts o) g = Val f).
  { clear -F2 I. induction F2 as [|a b l m J _ IH]; [destruct I|]. destruct I as [<-|I]; [exists a; split; [left; reflexivity|exact J]|].
    destruct (IH I) as (g & I2 & J2). exists g. split; [right; exact I2|exact J2]. }
  destruct X as (g & Ig & J).
  assert (U := fdec_unchecked ovf _ [] frames ltac:(destruct DF as [DF|[_ DF]]; eauto) g Ig).
  unfold accepted, bad_frame. unfold rs_job in J. change VCID_FILL with 63%N in J.
  destruct (N.eqb_spec (v_vcid (f_header g)) 63) as [EQ|NE]; cbn [negb] in J.
  - injection J as <-. rewrite U. split; [intros [X|X]; discriminate|]. intros [X _]. contradiction.
  - destruct (perform k (rs_of_opts o) (f_data g)) as [[[i d]|er]|] eqn:EP; cbn [obind] in J; try discriminate. injection J as <-. cbn [f_header f_integrity].
    assert (NF := perform_kinds _ _ _ _ _ EP).
    destruct i; try contradiction; intuition congruence.
Qed.
Print Assumptions C93_kept_exactly.
(* So as long as nothing is damaged, nothing but fill frames is missing. *)
Theorem C93_undamaged : forall ovf k nthreads len o r bs out,
  bytes_ok bs -> delivers r bs -> recipe ovf k nthreads len o r out ->
  exists full, pipeline_start ovf k nthreads (pipeline_with_rs (pipeline_new len) o) r full /\
    forall v, v <> 63%N -> (forall f, In f full -> is_chan v f = true -> ~ bad_frame f) ->
      filter (is_chan v) out = filter (is_chan v) full.
Proof.
  intros ovf k nt len o r bs out Hb HD R. destruct (proj1 (C93_same_frames ovf k nt len o r bs out Hb HD) R) as (full & P & K).
  exists full. split; [exact P|]. intros v Hv. assert (A := C93_kept_exactly ovf k nt len o r full). specialize (fun f => A f P). clear P R. revert A.
  induction K as [|f l m A0 K IH|f l m A0 K IH]; intros A G; [reflexivity| |]; cbn [filter].
  - rewrite IH; [reflexivity| |]; intros g I; [apply A|apply G]; right; exact I.
  - destruct (is_chan v f) eqn:C.
    + exfalso. apply A0, (A f (or_introl eq_refl)). split; [apply N.eqb_eq in C; unfold chan in C; congruence|apply G; [left; reflexivity|exact C]].
    + apply IH; intros g I; [apply A|apply G]; right; exact I.
Qed.
Print Assumptions C93_undamaged.

(* ---- packets out of the frames that are left ---- *)
(* Three frames of a channel in a row: the first ends with the beginning x of a packet w, the second
   could not be corrected, the third starts with the end z of w and goes on with the data [rest] of
   other packets. The frame decoder saw all three, so none of them reports a loss. Given all three, the
   packet decoder drops w and goes on with what starts in the third frame. Given only the two the
   documented filter leaves, it delivers a packet that was never sent: the header of w, the bytes x and
   z, and in place of what the second frame held bytes of the packets behind w, whose own beginning is
   lost. *)
Theorem C93_stitched_refuted : forall izone trailer v f1 f2 f3 w x y z rest,
  frames_ok izone trailer [f1; f2; f3] -> Forall (fun f => v_vcid (f_header f) = v) [f1; f2; f3] ->
  wire_ok w -> telemetry w -> wire_bytes w = x ++ y ++ z -> 6 <= length x -> length y <= length rest -> 0 < length y + length z ->
  accepted f1 -> f_integrity f2 = Some IUncorrectable -> accepted f3 ->
  f_missing f2 = 0%N -> f_missing f3 = 0%N ->
  has_start izone trailer f1 = true -> skipn (pointer_of izone trailer f1) (payload_of izone trailer f1) = x ->
  payload_of izone trailer f3 = z ++ rest ->
  filter doc_filter [f1; f2; f3] = [f1; f3] /\
  (exists ps, yields (fpiter_next izone trailer) (packet_decoder [f1; f3])
    (mkPacket (w_header w) (x ++ z ++ firstn (length y) rest) 0 :: ps)) /\
  (forall ps, yields (fpiter_next izone trailer) (packet_decoder [f1; f2; f3]) ps <->
              yields (fpiter_next izone trailer) (packet_decoder [f3]) ps).
Proof.
  intros iz tr v f1 f2 f3 w x y z rest FOK CH WO TM WB LX LY LYZ A1 B2 A3 M2 M3 HS EX E3.
  assert (NB : forall f, accepted f -> ~ bad_frame f) by (intros f [A|A] [B|B]; congruence).
  destruct (wire_bytes_props w WO) as (_ & _ & WL & WH).
  assert (H1 : spec_header x = w_header w) by (rewrite <- WH, WB; symmetry; apply spec_header_app; exact LX).
  assert (L1 : wire_len x = length x + length y + length z).
  { rewrite <- (wire_len_app x (y ++ z) LX), <- WB, WL, WB, !app_length. lia. }
  assert (T1 : tm_header x) by (unfold tm_header; rewrite H1; exact TM).
  assert (C1 : carve x [] (Some x)) by (apply carve_wait; [exact LX|exact T1|lia]).
  inversion FOK as [|? ? F1 FOK2]; subst. inversion FOK2 as [|? ? F2 FOK3]; subst. inversion FOK3 as [|? ? F3 _]; subst.
  inversion CH as [|? ? V1 CH2]; subst. inversion CH2 as [|? ? V2 CH3]; subst. inversion CH3 as [|? ? V3 _]; subst.
  set (x := skipn _ _) in *.
  assert (S1 : vc_step iz tr None f1 [] (Some x)) by (eapply vc_start; [apply NB; exact A1|left; reflexivity|exact HS|exact C1]).
  split; [cbn [filter]; rewrite (proj2 (doc_filter_accepted f1) A1), (proj2 (doc_filter_accepted f3) A3); unfold doc_filter at 1; rewrite B2; reflexivity|].
  split.
  - set (b := x ++ z ++ rest).
    assert (LB : wire_len b = length x + length y + length z) by (unfold b; rewrite wire_len_app by exact LX; exact L1).
    assert (HB : spec_header b = w_header w) by (unfold b; rewrite spec_header_app by exact LX; exact H1).
    destruct (carve_total _ (skipn (wire_len b) b) (le_n _)) as (ps & st & CR).
    assert (C3 : carve b (mkPacket (spec_header b) (firstn (wire_len b) b) 0 :: ps) st).
    { apply carve_packet; [unfold b; rewrite app_length; lia|unfold tm_header; rewrite HB; exact TM|rewrite LB; unfold b; rewrite !app_length; lia|exact CR]. }
    exists ps. apply single_iff with (v := v_vcid (f_header f1)).
    + constructor; [exact F1|constructor; [exact F3|constructor]].
    + constructor; [reflexivity|constructor; [exact V3|constructor]].
    + exists st. eapply vc_cons with (ps := []); [exact S1|].
      assert (EF : mkPacket (w_header w) (x ++ z ++ firstn (length y) rest) 0 :: ps = (mkPacket (spec_header b) (firstn (wire_len b) b) 0 :: ps) ++ []).
      { rewrite app_nil_r, HB. f_equal. f_equal. rewrite LB. unfold b. rewrite firstn_app, (firstn_all2 x) by lia. f_equal.
        rewrite firstn_app, (firstn_all2 z) by lia. f_equal. f_equal. lia. }
      rewrite EF. eapply vc_cons; [|constructor]. eapply vc_continue; [apply NB; exact A3|exact M3|]. rewrite E3. exact C3.
  - assert (Y1 : yields (fpiter_next iz tr) (packet_decoder [f1]) []).
    { apply single_iff with (v := v_vcid (f_header f1)); [constructor; [exact F1|constructor]|constructor; [reflexivity|constructor]|].
      exists (Some x). eapply vc_cons with (ps := []) (qs := []); [exact S1|constructor]. }
    assert (R : forall qs, yields (fpiter_next iz tr) (packet_decoder [f3]) qs -> yields (fpiter_next iz tr) (packet_decoder [f1; f2; f3]) qs).
    { intros qs Q. apply (C39_restart_after_errored_frame iz tr (v_vcid (f_header f1)) [f1] f2 [f3] [] qs FOK CH); [left; exact B2|exact Y1|exact Q]. }
    intro ps. split; [|apply R]. intro P.
    destruct (C40_no_panic iz tr [f3]) as [qs Q]; [constructor; [apply F3|constructor]|constructor; [apply F3|constructor]|].
    rewrite (yields_det _ _ _ _ _ _ P (R qs Q)). exact Q.
Qed.
Print Assumptions C93_stitched_refuted.

(* the link of P_Loss.v, where a frame of channel 5 is damaged beyond repair: the chain delivers a packet
   that was never sent, and not the packet behind it, which arrived complete (compare C75_ex) *)
Definition lx_opts : rs_opts := mkRsOpts 1 200 2 3 true true.
Definition lx_kept : list frame :=
  match run biter_next 20 (synchronize (reader_of lx_stream) ASM 55) with
  | (items, Finished) =>
      match run (fdec_next true) 20 (frame_decoder (derandomize (oks items))) with
      | (fs, Finished) => flat_map (fun f => match rs_job lx_codec (rs_of_opts lx_opts) f with Val f' => [f'] | Panic => [] end) fs
      | _ => []
      end
  | _ => []
  end.
Lemma lx_out : forall out, recipe true lx_codec 2 55 lx_opts (reader_of lx_stream) out -> out = filter doc_filter lx_kept.
Proof.
  intros out [blocks frames s Y DF R E]. f_equal.
  destruct (run while_next 20 (synchronize (reader_of lx_stream) ASM 55)) as [bl st] eqn:E1.
  assert (st = Finished) by (change st with (snd (bl, st)); rewrite <- E1; vm_compute; reflexivity). subst st.
  assert (blocks = bl) by (eapply yields_det; [exact Y|eapply run_yields; exact E1]). subst blocks.
  destruct (run (fdec_next true) 20 (frame_decoder (derandomize bl))) as [fs st] eqn:E2.
  assert (EB : bl = fst (run while_next 20 (synchronize (reader_of lx_stream) ASM 55))) by (rewrite E1; reflexivity).
  assert (st = Finished) by (change st with (snd (fs, st)); rewrite <- E2, EB; vm_compute; reflexivity). subst st.
  assert (frames = fs) by (destruct DF as [DF|[_ DF]]; [eapply yields_det; [exact DF|eapply run_yields; exact E2]|destruct (yields_not_panics _ _ _ _ _ _ (run_yields _ _ _ _ _ _ E2) DF)]). subst frames.
  assert (F2 := ended_all _ _ _ _ _ _ R E). 
  assert (EF : st_recv s = flat_map (fun f => match rs_job lx_codec (rs_of_opts lx_opts) f with Val f' => [f'] | Panic => [] end) fs).
  { clear -F2. induction F2 as [|f f' l m J _ IH]; [reflexivity|]. cbn [flat_map]. rewrite J, <- IH. reflexivity. }
  rewrite EF. assert (EFS : fs = fst (run (fdec_next true) 20 (frame_decoder (derandomize bl)))) by (rewrite E2; reflexivity).
  rewrite EFS, EB. vm_compute. reflexivity.
Qed.
Example C93_ex :
  (exists out, recipe true lx_codec 2 55 lx_opts (reader_of lx_stream) out) /\
  forall out, recipe true lx_codec 2 55 lx_opts (reader_of lx_stream) out ->
    map (fun f => v_vcid (f_header f)) out = [3; 5; 5; 3]%N /\
    exists ps p, yields (fpiter_next 0 0) (packet_decoder out) ps /\ In p ps /\
      p_header p = w_header (ex_pkt 8 24) /\ (forall v, ~ In (p_data p) (map wire_bytes (lx_pkts v))) /\
      ~ In (pk (ex_pkt 9 9)) ps /\ In (ex_pkt 9 9) (lx_pkts 5).
Proof.
  split; [apply C93_ends; [lia|exact lx_codec_ok|cbn; lia|reflexivity|cbn; lia]|].
  intros out R. rewrite (lx_out out R). split; [vm_compute; reflexivity|].
  destruct (run (fpiter_next 0 0) 20 (packet_decoder (filter doc_filter lx_kept))) as [ps st] eqn:E.
  assert (st = Finished) by (change st with (snd (ps, st)); rewrite <- E; vm_compute; reflexivity). subst st.
  assert (EP : ps = fst (run (fpiter_next 0 0) 20 (packet_decoder (filter doc_filter lx_kept)))) by (rewrite E; reflexivity).
  exists ps, (mkPacket (w_header (ex_pkt 8 24)) (lx_part 5 0 ++ lx_part 5 2) 0). split; [eapply run_yields; exact E|]. rewrite EP.
  split; [vm_compute; tauto|]. split; [reflexivity|]. split.
  - intros v H. unfold lx_pkts in H. destruct (v =? 3)%N; [|destruct (v =? 5)%N]; vm_compute in H; intuition discriminate.
  - split; [vm_compute; intuition discriminate|cbn; tauto].
Qed.
(* a reader that fails for ever after the first block *)
Example C93_ex_failing : yields while_next (synchronize (mkReader [EvData (ASM ++ [1; 2; 3; 26; 207]%N)] (Failing 5)) ASM 3) [mkBlock 0 (mkLoc 5 0) [1; 2; 3]%N].
Proof. eapply run_yields with (fuel := 5). vm_compute. reflexivity. Qed.
(* three frames that meet the hypotheses of C93_stitched_refuted *)
Definition sx_frame (c : N) (ptr i : nat) (g : integrity) : frame := mkFrame (mkVcdu 1 0 5 c) 0 (Some g) (ex_frm 5 c ptr (lx_part 5 i)).
Example C93_ex_stitched : exists ps,
  yields (fpiter_next 0 0) (packet_decoder (filter doc_filter [sx_frame 100 0 0 IOk; sx_frame 101 2047 1 IUncorrectable; sx_frame 102 0 2 ICorrected]))
    (mkPacket (w_header (ex_pkt 8 24)) (lx_part 5 0 ++ lx_part 5 2) 0 :: ps).
Proof.
  destruct (C93_stitched_refuted 0 0 5 (sx_frame 100 0 0 IOk) (sx_frame 101 2047 1 IUncorrectable) (sx_frame 102 0 2 ICorrected)
    (ex_pkt 8 24) (lx_part 5 0) (lx_part 5 1) [] (lx_part 5 2)) as (E & [ps Y] & _); try reflexivity; try (cbn; lia).
  - repeat constructor.
  - repeat constructor.
  - split; [repeat split; reflexivity|]. split; [bytes_tac|reflexivity].
  - split; reflexivity.
  - left. reflexivity.
  - right. reflexivity.
  - exists ps. rewrite E. exact Y.
Qed.
