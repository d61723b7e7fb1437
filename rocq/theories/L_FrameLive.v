(* Lemmas about the framing command as it runs *)
From Verif Require Import Base S_Packet S_Frame M_Reader M_Packet M_Bytes M_Sync M_Pn M_Frame M_ReedSolomon M_RsPipeline M_Live S_Live S_Pause M_Pipeline M_Pause
  M_Merge M_Cli S_Cli M_Main S_Main M_FrameLive L_Base L_Frame L_Live L_Pause L_Merge L_SyncSafe L_SyncReads P_Pn P_Sync P_Frame P_CliFrame P_Main P_Main2 P_Live.
Open Scope nat_scope.

(* ---- frames, pulled one at a time ---- *)
Section Decoding.
Context (ovf : bool) {S : Type} (next : pullable S block).
Lemma decoding_once : forall src cs h, pulls next src cs h -> forall m frames, yields (fdec_next ovf) (mkFdec m cs) frames ->
  exists h', pulls (decoding_next ovf next) (mkDecoding m src) frames h' /\
    status_of h' = if existsb unreadable cs then Returned else status_of h.
Proof.
  intros src cs h P. induction P as [n s s' E|n s E|s E|n s s' c cs h E P IH]; intros m frames Y.
  - inversion Y as [? s2 E2|? s2 f fs E2]; subst; [|discriminate E2]. exists (EndsIn (mkDecoding m s')). split; [|reflexivity].
    eapply pulls_end with (n := n). unfold decoding_next. cbn [dc_src]. rewrite E. reflexivity.
  - inversion Y as [? s2 E2|? s2 f fs E2]; subst; [|discriminate E2]. exists Breaks. split; [|reflexivity].
    eapply pulls_panic with (n := n). unfold decoding_next. cbn [dc_src]. rewrite E. reflexivity.
  - inversion Y as [? s2 E2|? s2 f fs E2]; subst; [|discriminate E2]. exists Forever. split; [|reflexivity].
    apply pulls_hang. intro n. unfold decoding_next. cbn [dc_src]. rewrite E. reflexivity.
  - assert (D := decoding_item ovf next n m s c s' E). assert (L := dstep_list ovf m c cs). cbn [existsb]. destruct (unreadable c) eqn:U.
    + rewrite (dstep_short ovf m c U) in D, L. cbn [obind] in D, L. inversion Y as [? s2 E2|? s2 f fs E2]; subst; rewrite L in E2; [|discriminate].
      eexists. split; [eapply pulls_end; exact D|reflexivity].
    + destruct (dstep ovf m c) as [[x m']|] eqn:ED; cbn [obind] in D, L.
      * destruct (dstep_long _ _ _ _ _ U ED) as [f ->]. inversion Y as [? s2 E2|? s2 f2 fs E2 Y2]; subst; rewrite L in E2; [discriminate|]. injection E2 as -> <-.
        destruct (IH m' fs Y2) as (h' & P' & ST). exists h'. split; [eapply pulls_item; [exact D|exact P']|exact ST].
      * inversion Y as [? s2 E2|? s2 f fs E2]; subst; rewrite L in E2; discriminate.
Qed.
Lemma decoding_breaks : forall src cs h, pulls next src cs h -> forall m frames, panics_after (fdec_next ovf) (mkFdec m cs) frames ->
  pulls (decoding_next ovf next) (mkDecoding m src) frames Breaks.
Proof.
  intros src cs h P. induction P as [n s s' E|n s E|s E|n s s' c cs h E P IH]; intros m frames Y;
    try (inversion Y as [? E2|? s2 f fs E2]; subst; discriminate E2).
  assert (D := decoding_item ovf next n m s c s' E). assert (L := dstep_list ovf m c cs).
  destruct (dstep ovf m c) as [[x m']|] eqn:ED; cbn [obind] in D, L.
  - inversion Y as [? E2|? s2 f fs E2 Y2]; subst; rewrite L in E2; [discriminate|]. injection E2 as -> <-.
    eapply pulls_item; [exact D|apply IH; exact Y2].
  - inversion Y as [? E2|? s2 f fs E2 Y2]; subst; rewrite L in E2; [|discriminate]. eapply pulls_panic. exact D.
Qed.
End Decoding.

Lemma mono_blocks : forall d, mono (blocks_live d).
Proof. intros [|]; [apply mono_mapped|]; apply mono_filter_mapped, mono_direct. Qed.
Lemma mono_frames : forall ovf d, mono (frames_live ovf d).
Proof. intros ovf d. apply mono_decoding, mono_blocks. Qed.
Lemma pulls_blocks : forall d s items h, reads biter_next s items h ->
  pulls (blocks_live d) s (if d then map derandomize_cadu (keep_ok items) else keep_ok items) h.
Proof. intros d s items h R. apply pulls_ok_only in R. destruct d; [apply pulls_mapped|]; exact R. Qed.

(* ---- lengths ---- *)
Lemma reads_lengths : forall asm len, asm <> [] -> forall s items h, reads biter_next s items h -> binv asm len s ->
  Forall (fun b => length (bl_data b) = len) (keep_ok items).
Proof.
  intros asm len Hne. induction 1 as [s s' E|s E|s F|s s' a items h E R IH]; intro G; try constructor.
  destruct (next_safe asm len Hne s G) as (o & s1 & E1 & G1 & _ & D & _). rewrite E in E1. injection E1 as <- <-.
  destruct a as [b|e]; cbn [keep_ok]; [constructor; [apply D; reflexivity|]|]; apply IH; exact G1.
Qed.
Lemma frames_of : forall ovf cs frames, yields (fdec_next ovf) (frame_decoder cs) frames \/ panics_after (fdec_next ovf) (frame_decoder cs) frames ->
  exists first rest, cs = first ++ rest /\ yields (fdec_next ovf) (frame_decoder first) frames.
Proof.
  intros ovf cs frames [Y|P].
  - exists cs, []. rewrite app_nil_r. auto.
  - exists (firstn (length frames) cs), (skipn (length frames) cs). split; [symmetry; apply firstn_skipn|]. apply panics_prefix. exact P.
Qed.
Lemma decoded_lengths : forall ovf cs frames len, Forall (fun b => length (bl_data b) = len) cs ->
  yields (fdec_next ovf) (frame_decoder cs) frames \/ panics_after (fdec_next ovf) (frame_decoder cs) frames ->
  Forall (fun f => (length (f_data f) = len /\ f_integrity f = None) /\ (v_vcid (f_header f) < 64)%N) frames.
Proof.
  intros ovf cs frames len HB Y. apply frames_of in Y. destruct Y as (b1 & b2 & -> & Y). apply Forall_app in HB. destruct HB as [HB _].
  apply Forall_and.
  - destruct (C33_frames ovf b1 frames Y) as [A _]. apply Forall_forall. intros f I. apply In_nth_error in I. destruct I as [i Ei].
    destruct (A i f Ei) as (c & Ec & D & _ & F & _). split; [|exact F]. rewrite D. rewrite Forall_forall in HB. apply HB. eapply nth_error_In. exact Ec.
  - clear HB b2. remember (frame_decoder b1) as s eqn:E. clear E. induction Y as [|s s' f items E Y IH]; [constructor|]. constructor; [|exact IH].
    unfold fdec_next in E. destruct (fd_cadus s) as [|c rest]; [discriminate|]. destruct (vcdu_decode (bl_data c)) as [[h|]|] eqn:D; cbn [obind] in E; try discriminate.
    destruct (if negb (v_vcid h =? VCID_FILL)%N then _ else _) as [m|]; cbn [obind] in E; [|discriminate]. injection E as <- _. cbn [f_header]. eapply decode_vcid_small; exact D.
Qed.

(* ---- the loop ---- *)
Lemma frame_loop_app : forall len kf inc exc ho l1 l2 s, frame_loop len kf inc exc ho (l1 ++ l2) s = let* s' := frame_loop len kf inc exc ho l1 s in frame_loop len kf inc exc ho l2 s'.
Proof.
  intros len kf inc exc ho l1 l2. induction l1 as [|f l1 IH]; intro s; cbn [app frame_loop]; [reflexivity|].
  destruct (negb (frame_selected kf inc exc f)); [apply IH|]. destruct (negb (frame_written f) || negb ho); [apply IH|].
  destruct (slice (f_data f) 0 len); cbn [obind]; [apply IH|reflexivity].
Qed.
Lemma frame_loop_fold : forall len kf inc exc ho l s, fold_ok (fun s f => frame_loop len kf inc exc ho [f] s) s l = frame_loop len kf inc exc ho l s.
Proof.
  intros len kf inc exc ho l. induction l as [|f l IH]; intro s; [reflexivity|]. change (f :: l) with ([f] ++ l) at 2. rewrite frame_loop_app.
  cbn [fold_ok]. destruct (frame_loop len kf inc exc ho [f] s); cbn [obind]; [apply IH|reflexivity].
Qed.
(* the output only grows *)
Lemma frame_loop_grows : forall len kf inc exc ho l s s', frame_loop len kf inc exc ho l s = Val s' -> exists z, fc_out s' = fc_out s ++ z.
Proof.
  intros len kf inc exc ho l. induction l as [|f l IH]; intros s s' E; cbn [frame_loop] in E.
  - injection E as <-. exists []. rewrite app_nil_r. reflexivity.
  - destruct (negb (frame_selected kf inc exc f)); [eapply IH; exact E|]. destruct (negb (frame_written f) || negb ho).
    + apply IH in E. exact E.
    + destruct (slice (f_data f) 0 len) as [d|]; cbn [obind] in E; [|discriminate]. apply IH in E. destruct E as [z E]. cbn [fc_out] in E. exists (d ++ z). rewrite E, app_assoc. reflexivity.
Qed.
Lemma frame_loop_cmd : forall len kf inc exc ho l s, frame_loop len kf inc exc ho l (mkFcmd finfo0 [] []) = Val s ->
  frame_cmd len kf inc exc ho l = Val (fc_all s, apid_sort (fc_vcids s), fc_out s).
Proof. intros len kf inc exc ho l s E. unfold frame_cmd. rewrite E. reflexivity. Qed.
Lemma oks_keep : forall A (l : list (result A)), oks l = keep_ok l.
Proof. intros A l. induction l as [|[a|e] l IH]; cbn [oks keep_ok]; [reflexivity|f_equal; exact IH|exact IH]. Qed.
