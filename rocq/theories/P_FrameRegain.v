(* Property C108, continued: how far damage in frames reaches *)
From Verif Require Import Base S_Bits M_Packet M_Bytes M_Sync M_Frame M_FramePackets L_Base L_Bits S_Packet L_Packet L_Frame S_FramePackets L_FramePackets L_FramePackets2 P_FramePackets
  M_Reader M_Merge S_Merge S_Join S_Damage P_Damage S_FrameDamage P_FrameDamage.
Open Scope nat_scope.

Section S.
Variables izone trailer : nat.
Notation pay := (payload_of izone trailer).
Lemma carve_again : forall a ps c, carve a ps (Some c) -> carve c [] (Some c).
Proof.
  intros a ps c C. destruct (carve_split a [] ps c ltac:(rewrite app_nil_r; exact C)) as (q1 & d1 & q2 & D1 & D2 & E).
  destruct (carve_det _ _ _ D1 _ _ C) as [-> X]. injection X as ->. rewrite app_nil_r in D2.
  assert (q2 = []) by (apply (app_inv_head ps); rewrite app_nil_r; symmetry; exact E). subst q2. exact D2.
Qed.
Lemma run_to : forall rest c ps d, Forall (fun f => ~ bad_frame f) rest -> Forall (fun f => f_missing f = 0%N) rest ->
  carve (c ++ concat (map pay rest)) ps (Some d) -> carve c [] (Some c) -> vc_run izone trailer (Some c) rest ps (Some d).
Proof.
  induction rest as [|f rest IH]; intros c ps d NB NM C CC; inversion NB; inversion NM; subst.
  - cbn [map concat] in C. rewrite app_nil_r in C. destruct (carve_det _ _ _ C _ _ CC) as [-> X]. injection X as ->. constructor.
  - cbn [map concat] in C. rewrite app_assoc in C. destruct (carve_split _ _ _ _ C) as (p1 & c1 & p2 & C1 & C2 & ->).
    econstructor; [apply vc_continue; [assumption|assumption|exact C1]|]. apply IH; [assumption|assumption|exact C2|eapply carve_again; exact C1].
Qed.
End S.

(* Damage does not reach beyond a loss: whatever the frames before it are, the packets lying in the frames from a gap on come out *)
Theorem C108_after_loss : forall izone trailer ws v a damaged fs e, Forall wire_ok ws -> Forall telemetry ws -> carries izone trailer ws a fs e ->
  frames_ok izone trailer damaged -> Forall (fun f => chan f = v) (damaged ++ fs) ->
  (exists f after, fs = f :: after /\ f_missing f <> 0%N /\ Forall (fun f => f_missing f = 0%N) after) ->
  exists qs, yields (fpiter_next izone trailer) (packet_decoder damaged) qs /\
    yields (fpiter_next izone trailer) (packet_decoder (damaged ++ fs)) (qs ++ map pk (map snd (filter (between a e) (with_pos 0 ws)))).
Proof.
  intros izone trailer ws v a damaged fs e WO TM CA FO CH (f & after & -> & GAP & NM).
  destruct (C37_channels_independent izone trailer damaged FO) as (cs & _ & Y & _).
  exists (concat cs). split; [exact Y|]. assert (CH' := CH). apply Forall_app in CH'. destruct CH' as [_ CH2].
  apply (C39_restart_after_gap izone trailer v damaged f after).
  - apply Forall_app. split; [exact FO|]. clear -CA. remember (f :: after) as fs. clear Heqfs. induction CA; constructor; [split; assumption|assumption].
  - exact CH.
  - exact GAP.
  - exact Y.
  - apply (C36_reassembly izone trailer ws v a (f :: after) e WO TM CA CH2). exact NM.
Qed.
Print Assumptions C108_after_loss.
(* A version or type field damaged without being noticed, so that what follows a packet is not a telemetry packet: the rest of what has been received
   up to the frame that shows this is dropped, that frame included, and the frames behind it are decoded as if they were the first *)
Theorem C108_not_a_packet : forall izone trailer v f0 rest f post ps c qs rs, frames_ok izone trailer (f0 :: rest ++ f :: post) ->
  Forall (fun f => chan f = v) (f0 :: rest ++ f :: post) -> linked izone trailer f0 (rest ++ [f]) ->
  carve (zone_from izone trailer f0 rest) ps (Some c) -> carve (c ++ payload_of izone trailer f) qs None ->
  yields (fpiter_next izone trailer) (packet_decoder post) rs ->
  yields (fpiter_next izone trailer) (packet_decoder (f0 :: rest ++ f :: post)) (ps ++ qs ++ rs).
Proof.
  intros izone trailer v f0 rest f post ps c qs rs FO CH (NB & NM & HS) C CN Y.
  apply single_iff with (v := v); [exact FO|exact CH|].
  assert (FP : frames_ok izone trailer post) by (unfold frames_ok in *; inversion FO as [|? ? _ F1]; subst; apply Forall_app in F1; destruct F1 as [_ F2]; inversion F2; assumption).
  assert (CP : Forall (fun f => chan f = v) post) by (inversion CH as [|? ? _ F1]; subst; apply Forall_app in F1; destruct F1 as [_ F2]; inversion F2; assumption).
  destruct (proj1 (single_iff izone trailer v post rs FP CP) Y) as (st & RP).
  inversion NB as [|? ? NB0 NB1]; subst. apply Forall_app in NB1. destruct NB1 as [NB1 NB2]. inversion NB2; subst.
  apply Forall_app in NM. destruct NM as [NM1 NM2]. inversion NM2; subst.
  unfold zone_from in C. destruct (carve_split _ _ _ _ C) as (p1 & c1 & p2 & C1 & C2 & ->).
  exists st. rewrite <- app_assoc. econstructor; [apply vc_start; [assumption|left; reflexivity|exact HS|exact C1]|].
  eapply vc_run_app; [apply run_to; [assumption|assumption|exact C2|eapply carve_again; exact C1]|].
  econstructor; [|exact RP]. apply vc_continue; assumption.
Qed.
Print Assumptions C108_not_a_packet.

(* ---- the hypotheses are met ---- *)
(* a length damaged in the first frame; then a frame is lost *)
Example C108_after_loss_ex : exists qs, yields (fpiter_next 1 2) (packet_decoder [ex_frame 3 0 0 (set_length 1000 (wire_bytes (ex_packet 5 3)))]) qs /\
  yields (fpiter_next 1 2) (packet_decoder (ex_frame 3 0 0 (set_length 1000 (wire_bytes (ex_packet 5 3))) :: ex_fs)) (qs ++ map pk ex_ws).
Proof.
  apply (C108_after_loss 1 2 ex_ws 3 0 [ex_frame 3 0 0 (set_length 1000 (wire_bytes (ex_packet 5 3)))] ex_fs 28).
  - exact (proj1 fd_filed).
  - repeat constructor.
  - exact C36_ex_carries.
  - constructor; [split; [ex_bytes|unfold long_enough; cbn; lia]|constructor].
  - repeat constructor.
  - eexists. eexists. split; [reflexivity|]. split; [discriminate|repeat constructor].
Qed.
(* one packet to a frame; the type of the second is damaged: it is lost, the third comes out *)
Example C108_not_a_packet_ex : yields (fpiter_next 1 2) (packet_decoder
    [ex_frame 3 0 0 (wire_bytes (ex_packet 5 3)); ex_frame 3 0 0 (16%N :: tl (wire_bytes (ex_packet 6 5))); ex_frame 3 0 0 (wire_bytes (ex_packet 7 2))])
  (map pk [ex_packet 5 3; ex_packet 7 2]).
Proof.
  apply (C108_not_a_packet 1 2 3 (ex_frame 3 0 0 (wire_bytes (ex_packet 5 3))) [] (ex_frame 3 0 0 (16%N :: tl (wire_bytes (ex_packet 6 5))))
    [ex_frame 3 0 0 (wire_bytes (ex_packet 7 2))] [pk (ex_packet 5 3)] [] [] [pk (ex_packet 7 2)]).
  - repeat constructor; try ex_bytes; unfold long_enough; cbn; lia.
  - repeat constructor.
  - split; [|split].
    + repeat constructor; intros [X|X]; discriminate.
    + repeat constructor.
    + reflexivity.
  - change (zone_from 1 2 _ _) with (wire_bytes (ex_packet 5 3)).
    apply carve_packet; [vm_compute; lia|split; reflexivity|vm_compute; lia|]. apply carve_short. cbn. lia.
  - apply carve_invalid; [vm_compute; lia|]. intros [_ T]. vm_compute in T. discriminate T.
  - apply (C108_lengths_only 1 2 3 _ [] [pk (ex_packet 7 2)] []).
    + repeat constructor; try ex_bytes; unfold long_enough; cbn; lia.
    + repeat constructor.
    + split; [|split]; [repeat constructor; intros [X|X]; discriminate|constructor|reflexivity].
    + change (zone_from 1 2 _ _) with (wire_bytes (ex_packet 7 2)).
      apply carve_packet; [vm_compute; lia|split; reflexivity|vm_compute; lia|]. apply carve_short. cbn. lia.
Qed.
