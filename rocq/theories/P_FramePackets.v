(* Properties C36 - C40: packets out of frames *)
From Verif Require Import Base S_Bits M_Packet M_Bytes M_Sync M_Frame M_FramePackets L_Base L_Bits S_Packet L_Packet L_Frame S_FramePackets L_FramePackets L_FramePackets2.
Open Scope nat_scope.

(* ---- C36 ---- *)
(* [fs], all of one virtual channel and only the first possibly after a loss, carry the bytes a .. e-1
   of the packets [ws] laid end to end: the output is the packets lying in a .. e-1. Payload sizes may
   differ from frame to frame. *)
Theorem C36_reassembly : forall izone trailer ws v a fs e,
  Forall wire_ok ws -> Forall telemetry ws ->
  carries izone trailer ws a fs e ->
  Forall (fun f => v_vcid (f_header f) = v) fs -> Forall (fun f => f_missing f = 0%N) (tl fs) ->
  yields (fpiter_next izone trailer) (packet_decoder fs)
    (map pk (map snd (filter (between a e) (with_pos 0 ws)))).
Proof.
  intros izone trailer ws v a fs e HW HT HC HV HM. apply single_iff with (v := v).
  - eapply carries_frames_ok; eassumption.
  - exact HV.
  - eapply unsynced_run; eassumption.
Qed.
Print Assumptions C36_reassembly.
(* all of the stream from its first byte: all packets come out *)
Theorem C36_round_trip : forall izone trailer ws v fs,
  Forall wire_ok ws -> Forall telemetry ws ->
  carries izone trailer ws 0 fs (length (stream ws)) ->
  Forall (fun f => v_vcid (f_header f) = v) fs -> Forall (fun f => f_missing f = 0%N) (tl fs) ->
  yields (fpiter_next izone trailer) (packet_decoder fs) (map pk ws).
Proof.
  intros izone trailer ws v fs HW HT HC HV HM.
  assert (Y := C36_reassembly izone trailer ws v 0 fs _ HW HT HC HV HM).
  rewrite filter_all, with_pos_snd in Y; [exact Y|]. intros [x w] I. unfold between. cbn [fst snd].
  apply with_pos_end in I. apply andb_true_intro. split; apply Nat.leb_le; lia.
Qed.
Print Assumptions C36_round_trip.

(* ---- C37 ---- *)
(* what a frame contributes is a function of the frame and of the earlier frames of its channel *)
Theorem C37_contribution_function : forall izone trailer, exists contribution : list frame -> frame -> list packet,
  forall fs dflt, frames_ok izone trailer fs ->
  yields (fpiter_next izone trailer) (packet_decoder fs)
    (concat (map (fun i => contribution (filter (is_chan (chan (nth i fs dflt))) (firstn i fs)) (nth i fs dflt))
                 (seq 0 (length fs)))).
Proof.
  intros izone trailer. exists (contrib izone trailer). intros fs dflt HF.
  assert (M := contrib_mrun izone trailer fs [] HF). cbn [app length] in M.
  apply decoder_mrun; [exact HF|]. erewrite map_ext_in; [exact M|]. intros i I. apply in_seq in I. cbn beta.
  rewrite (nth_indep fs dflt (mkFrame (mkVcdu 0 0 0 0) 0 None [])) by lia. reflexivity.
Qed.
Print Assumptions C37_contribution_function.
(* the packets of the frames of channel v are those of these frames alone *)
Theorem C37_channels_independent : forall izone trailer fs, frames_ok izone trailer fs ->
  exists cs, length cs = length fs /\ yields (fpiter_next izone trailer) (packet_decoder fs) (concat cs) /\
  forall v, yields (fpiter_next izone trailer) (packet_decoder (filter (is_chan v) fs))
              (concat (map snd (filter (fun fc => is_chan v (fst fc)) (combine fs cs)))).
Proof.
  intros izone trailer fs HF. destruct (mrun_total izone trailer fs (fun _ => None)) as [cs M]. exists cs.
  split; [eapply mrun_length; exact M|]. split; [apply decoder_mrun; assumption|]. intro v.
  apply single_iff with (v := v); [apply frames_ok_filter; exact HF| |].
  - apply Forall_forall. intros f I. apply filter_In in I. apply N.eqb_eq. exact (proj2 I).
  - exact (mrun_channel izone trailer v _ fs cs M).
Qed.
Print Assumptions C37_channels_independent.

(* ---- C38 ---- *)
Theorem C38_packet_origin : forall izone trailer fs ps p, frames_ok izone trailer fs ->
  yields (fpiter_next izone trailer) (packet_decoder fs) ps -> In p ps ->
  exists v before f0 rest after earlier suffix,
    filter (is_chan v) fs = before ++ (f0 :: rest) ++ after /\
    (* no uncorrected frame among f0, rest; no gap inside; f0 has a packet start *)
    Forall (fun f => ~ bad_frame f) (f0 :: rest) /\ Forall (fun f => f_missing f = 0%N) rest /\
    has_start izone trailer f0 = true /\
    (* the packet follows earlier packets in the payload data from the first header pointer of f0 on *)
    skipn (pointer_of izone trailer f0) (payload_of izone trailer f0) ++ concat (map (payload_of izone trailer) rest)
      = concat (map p_data earlier) ++ p_data p ++ suffix /\
    Forall proper earlier /\ proper p.
Proof.
  intros izone trailer fs ps p HF Y I. apply decoder_iff in Y; [|exact HF]. destruct Y as (cs & M & ->).
  apply in_concat in I. destruct I as (c & Ic & Ip). destruct (In_nth cs c [] Ic) as (i & Li & Ei).
  assert (LC := mrun_length _ _ _ _ _ M). set (f := nth i fs (mkFrame (mkVcdu 0 0 0 0) 0 None [])).
  destruct (mrun_channel izone trailer (chan f) _ _ _ M) as [st' R].
  assert (P0 : pending izone trailer [] None) by (intros c0 X; discriminate).
  assert (O := run_prov izone trailer _ [] _ _ _ P0 R).
  cbn [app] in O. rewrite Forall_forall in O. specialize (O p).
  destruct O as (A & f0 & rest & B & dn & s & E & (L1 & L2 & L3) & HZ & HD & HP).
  - apply in_concat. exists c. split; [|exact Ip]. apply in_map_iff. exists (f, c). split; [reflexivity|]. apply filter_In.
    split; [|cbn [fst]; apply N.eqb_refl]. rewrite <- Ei. unfold f. rewrite <- combine_nth by (symmetry; exact LC).
    apply nth_In. rewrite combine_length. lia.
  - exists (chan f), A, f0, rest, B, dn, s. repeat (split; [assumption|]). assumption.
Qed.
Print Assumptions C38_packet_origin.

(* ---- C39 ---- *)
Theorem C39_restart_after_gap : forall izone trailer v pre f post ps qs,
  frames_ok izone trailer (pre ++ f :: post) -> Forall (fun g => v_vcid (f_header g) = v) (pre ++ f :: post) ->
  f_missing f <> 0%N ->
  yields (fpiter_next izone trailer) (packet_decoder pre) ps ->
  yields (fpiter_next izone trailer) (packet_decoder (f :: post)) qs ->
  yields (fpiter_next izone trailer) (packet_decoder (pre ++ f :: post)) (ps ++ qs).
Proof.
  intros izone trailer v pre f post ps qs HF HV HM Y1 Y2.
  pose proof HF as HF'. pose proof HV as HV'. unfold frames_ok in HF'. apply Forall_app in HF', HV'. destruct HF' as [F1 F2], HV' as [V1 V2].
  apply (single_iff izone trailer v) in Y1; try assumption. apply (single_iff izone trailer v) in Y2; try assumption.
  apply (single_iff izone trailer v); try assumption. destruct Y1 as [s1 R1], Y2 as [s2 R2]. exists s2.
  eapply vc_run_app; [exact R1|]. inversion R2 as [|? ? ? p1 st' q1 ? VS RR]; subst. eapply vc_cons; [|exact RR].
  inversion VS; subst; [apply vc_bad; assumption|apply vc_start; auto|apply vc_skip; auto].
Qed.
Print Assumptions C39_restart_after_gap.
Theorem C39_restart_after_errored_frame : forall izone trailer v pre f post ps qs,
  frames_ok izone trailer (pre ++ f :: post) -> Forall (fun g => v_vcid (f_header g) = v) (pre ++ f :: post) ->
  bad_frame f ->
  yields (fpiter_next izone trailer) (packet_decoder pre) ps ->
  yields (fpiter_next izone trailer) (packet_decoder post) qs ->
  yields (fpiter_next izone trailer) (packet_decoder (pre ++ f :: post)) (ps ++ qs).
Proof.
  intros izone trailer v pre f post ps qs HF HV HB Y1 Y2.
  pose proof HF as HF'. pose proof HV as HV'. unfold frames_ok in HF'. apply Forall_app in HF', HV'. destruct HF' as [F1 F2], HV' as [V1 V2].
  inversion F2; subst. inversion V2; subst.
  apply (single_iff izone trailer (v_vcid (f_header f))) in Y1; try assumption. apply (single_iff izone trailer (v_vcid (f_header f))) in Y2; try assumption.
  apply (single_iff izone trailer (v_vcid (f_header f))); try assumption. destruct Y1 as [s1 R1], Y2 as [s2 R2]. exists s2.
  eapply vc_run_app; [exact R1|]. change qs with ([] ++ qs). eapply vc_cons; [|exact R2]. apply vc_bad. exact HB.
Qed.
Print Assumptions C39_restart_after_errored_frame.

(* ---- C40 ---- *)
Lemma frames_ok_intro : forall izone trailer fs,
  Forall (fun f => bytes_ok (f_data f)) fs -> Forall (fun f => 6 + izone + 2 + trailer <= length (f_data f)) fs ->
  frames_ok izone trailer fs.
Proof. intros izone trailer fs A B. unfold frames_ok. rewrite Forall_forall in *. intros f I. split; [apply A|apply B]; exact I. Qed.
Theorem C40_no_panic : forall izone trailer fs,
  Forall (fun f => bytes_ok (f_data f)) fs -> Forall (fun f => 6 + izone + 2 + trailer <= length (f_data f)) fs ->
  exists ps, yields (fpiter_next izone trailer) (packet_decoder fs) ps.
Proof.
  intros izone trailer fs Hb HL. destruct (mrun_total izone trailer fs (fun _ => None)) as [cs M]. exists (concat cs).
  apply decoder_mrun; [|exact M]. apply frames_ok_intro; assumption.
Qed.
Print Assumptions C40_no_panic.
(* a short frame: the packets of the frames before it come out, then the panic *)
Theorem C40_panic_at_short_frame : forall izone trailer fs f rest ps,
  Forall (fun f => bytes_ok (f_data f)) fs -> Forall (fun f => 6 + izone + 2 + trailer <= length (f_data f)) fs ->
  bytes_ok (f_data f) -> length (f_data f) < 6 + izone + 2 + trailer ->
  yields (fpiter_next izone trailer) (packet_decoder fs) ps ->
  panics_after (fpiter_next izone trailer) (packet_decoder (fs ++ f :: rest)) ps.
Proof.
  intros izone trailer fs f rest ps Hb HL Hbf HS Y.
  assert (HF : frames_ok izone trailer fs) by (apply frames_ok_intro; assumption).
  apply decoder_iff in Y; [|exact HF]. destruct Y as (cs & M & ->).
  apply (loop_panics izone trailer fs [] (fun _ => None) f rest cs HF Hbf ltac:(unfold long_enough; lia) (fun v => eq_refl) (fun v => I) M []).
Qed.
Print Assumptions C40_panic_at_short_frame.
Theorem C40_panics_iff : forall izone trailer fs, Forall (fun f => bytes_ok (f_data f)) fs ->
  ((exists ps, panics_after (fpiter_next izone trailer) (packet_decoder fs) ps) <->
   exists f, In f fs /\ length (f_data f) < 6 + izone + 2 + trailer).
Proof.
  intros izone trailer fs Hb. split.
  - intros [ps P]. destruct (Forall_dec (fun f => 6 + izone + 2 + trailer <= length (f_data f))
      (fun f => le_dec _ _) fs) as [A|A].
    + destruct (C40_no_panic izone trailer fs Hb A) as [qs Y]. destruct (yields_not_panics _ _ _ _ _ _ Y P).
    + apply Exists_Forall_neg in A; [|intro; lia]. apply Exists_exists in A. destruct A as (f & I & L). exists f. split; [exact I|lia].
  - induction fs as [|f fs IH] using rev_ind; intros (g & I & L); [destruct I|].
    apply Forall_app in Hb. destruct Hb as [Hb1 Hb2]. inversion Hb2; subst.
    destruct (Forall_dec (fun f => 6 + izone + 2 + trailer <= length (f_data f)) (fun f => le_dec _ _) fs) as [A|A].
    + destruct (C40_no_panic izone trailer fs Hb1 A) as [qs Y]. exists qs. apply C40_panic_at_short_frame; try assumption.
      apply in_app_or in I. destruct I as [I|[<-|[]]]; [|exact L]. rewrite Forall_forall in A. specialize (A g I). lia.
    + (* the first short frame is among fs *)
      clear IH. assert (X : exists l1 f1 l2, fs = l1 ++ f1 :: l2 /\ Forall (fun f => 6 + izone + 2 + trailer <= length (f_data f)) l1 /\ length (f_data f1) < 6 + izone + 2 + trailer).
      { clear -A. induction fs as [|f fs IH]; [destruct (A (Forall_nil _))|].
        destruct (le_lt_dec (6 + izone + 2 + trailer) (length (f_data f))) as [L|L].
        - destruct IH as (l1 & f1 & l2 & -> & K1 & K2); [intro X; apply A; constructor; assumption|].
          exists (f :: l1), f1, l2. split; [reflexivity|]. split; [constructor; assumption|exact K2].
        - exists [], f, fs. split; [reflexivity|]. split; [constructor|exact L]. }
      destruct X as (l1 & f1 & l2 & -> & K1 & K2). apply Forall_app in Hb1. destruct Hb1 as [B1 B2]. inversion B2; subst.
      destruct (C40_no_panic izone trailer l1 B1 K1) as [qs Y]. exists qs. rewrite <- app_assoc. cbn [app].
      apply C40_panic_at_short_frame; assumption.
Qed.
Print Assumptions C40_panics_iff.

(* ---- a concrete case ---- *)
Definition ex_packet (ap : N) (n : nat) : wire_packet :=
  mkWire (mkHeader 0 0 false ap 3 7 (N.of_nat n - 1)) (repeat 170%N n).
Definition ex_ws : list wire_packet := [ex_packet 5 3; ex_packet 6 5; ex_packet 7 2].
Definition ex_frame (v : N) (miss : N) (ptr : N) (payload : list N) : frame :=
  mkFrame (mkVcdu 1 157 v 4) miss None
    ([103; 80; 0; 0; 4; 0]%N ++ [9%N] ++ [ptr / 256; ptr mod 256]%N ++ payload ++ [1; 2]%N).
Definition ex_fs : list frame :=
  [ex_frame 3 1 0 (firstn 10 (stream ex_ws)); ex_frame 3 0 2047 (firstn 10 (skipn 10 (stream ex_ws)));
   ex_frame 3 0 0 (skipn 20 (stream ex_ws))].
Lemma ex_starts : forall x, starts_at ex_ws x <-> x = 0 \/ x = 9 \/ x = 20.
Proof.
  intro x. unfold starts_at. cbn. split.
  - intros [w [H|[H|[H|[]]]]]; injection H as <- _; auto.
  - intros [-> | [-> | ->]]; eexists; [left|right; left|right; right; left]; reflexivity.
Qed.
Ltac ex_bytes := repeat (constructor; [reflexivity|]); constructor.
Example C36_ex_carries : carries 1 2 ex_ws 0 ex_fs 28.
Proof.
  assert (NB : forall v m p l, ~ bad_frame (ex_frame v m p l)) by (intros v m p l [X|X]; discriminate).
  apply carries_cons with (n := 10); [ex_bytes|unfold long_enough; cbn; lia|apply NB|cbn; lia|lia|reflexivity| |].
  { left. exists 0. rewrite ex_starts. split; [auto|]. split; [lia|]. split; [intros; lia|reflexivity]. }
  apply carries_cons with (n := 10); [ex_bytes|unfold long_enough; cbn; lia|apply NB|cbn; lia|lia|reflexivity| |].
  { right. split; [|reflexivity]. intros y H. apply ex_starts in H. lia. }
  apply carries_cons with (n := 8); [ex_bytes|unfold long_enough; cbn; lia|apply NB|cbn; lia|lia|reflexivity| |].
  { left. exists 20. rewrite ex_starts. split; [auto|]. split; [lia|]. split; [intros y H; apply ex_starts in H; lia|reflexivity]. }
  constructor.
Qed.
Example C36_ex : Forall wire_ok ex_ws /\ Forall telemetry ex_ws /\
  yields (fpiter_next 1 2) (packet_decoder ex_fs) (map pk ex_ws) /\
  yields (fpiter_next 1 2) (packet_decoder (tl ex_fs)) (map pk [ex_packet 7 2]).
Proof.
  assert (W : Forall wire_ok ex_ws).
  { repeat constructor; cbn; lia. }
  assert (T : Forall telemetry ex_ws) by (repeat constructor).
  split; [exact W|]. split; [exact T|]. split.
  - apply C36_round_trip with (v := 3%N); [exact W|exact T|exact C36_ex_carries| |]; repeat constructor.
  - assert (C := C36_ex_carries). inversion C as [|? n f fs e Hb HL HN H1 H2 H3 H4 C2]; subst.
    assert (n = 10). { apply (f_equal (@length N)) in H3. rewrite firstn_length, skipn_length in H3. cbn in H3, H1. lia. } subst n.
    assert (Y := C36_reassembly 1 2 ex_ws 3 10 (tl ex_fs) 28 W T C2). cbn [tl] in Y.
    replace (map snd (filter (between 10 28) (with_pos 0 ex_ws))) with [ex_packet 7 2] in Y by reflexivity.
    apply Y; repeat constructor.
Qed.
(* two channels interleaved; the second frame of channel 3 is lost, so that its first packet only comes out *)
Example C37_C39_ex : exists ps,
  yields (fpiter_next 1 2) (packet_decoder
    [ex_frame 3 0 0 (firstn 10 (stream ex_ws)); ex_frame 4 0 0 (firstn 10 (stream ex_ws));
     ex_frame 4 0 2047 (firstn 10 (skipn 10 (stream ex_ws))); ex_frame 3 1 0 (skipn 20 (stream ex_ws))]) ps /\
  ps = map pk [ex_packet 5 3; ex_packet 5 3; ex_packet 6 5; ex_packet 7 2].
Proof. eexists. split; [|reflexivity]. apply run_yields with (fuel := 8). vm_compute. reflexivity. Qed.
(* an uncorrected frame *)
Example C39_ex : exists ps, yields (fpiter_next 1 2) (packet_decoder
    [ex_frame 3 0 0 (firstn 10 (stream ex_ws));
     mkFrame (mkVcdu 1 157 3 4) 0 (Some IUncorrectable) (f_data (ex_frame 3 0 2047 (firstn 10 (skipn 10 (stream ex_ws)))));
     ex_frame 3 0 0 (skipn 20 (stream ex_ws))]) ps /\ ps = map pk [ex_packet 5 3; ex_packet 7 2].
Proof. eexists. split; [|reflexivity]. apply run_yields with (fuel := 8). vm_compute. reflexivity. Qed.
Example C40_ex : panics_after (fpiter_next 1 2) (packet_decoder
   [ex_frame 3 0 0 (firstn 10 (stream ex_ws)); mkFrame (mkVcdu 1 157 3 4) 0 None (repeat 0%N 10)]) [pk (ex_packet 5 3)].
Proof.
  apply (C40_panic_at_short_frame 1 2 [ex_frame 3 0 0 (firstn 10 (stream ex_ws))]).
  - constructor; [ex_bytes|constructor].
  - constructor; [cbn; lia|constructor].
  - ex_bytes.
  - cbn. lia.
  - apply run_yields with (fuel := 3). vm_compute. reflexivity.
Qed.
