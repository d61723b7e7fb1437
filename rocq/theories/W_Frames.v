(* Theorems of C31 - C40 applied to concrete, non-trivial cases: every hypothesis is met. *)
From Verif Require Import Base S_Bits M_Packet M_Sync M_Frame M_FramePackets S_Packet S_Frame S_FramePackets L_Base P_Frame P_FramePackets.
Open Scope nat_scope.

Ltac ok := first
  [ reflexivity | discriminate | lia | (cbn; lia) | (cbn; auto; fail)
  | solve [repeat constructor; cbn; (reflexivity || lia)] ].

(* C31: versions 1, 0 and 2 *)
Definition hdr1 : list N := [0x67; 0x50; 0x96; 0x5f; 0x3b; 0x80; 0xff]%N.
Definition hdr0 : list N := [0x0f; 0x5e; 1; 2; 0; 0]%N.
Definition hdr2 : list N := [0x80; 0; 0; 0; 0; 0]%N.
Example C31_vcdu_header_at1 := proj1 (proj2 (C31_vcdu_header hdr1 ltac:(ok) ltac:(ok))) ltac:(reflexivity).
Example C31_vcdu_header_at0 := proj1 (C31_vcdu_header hdr0 ltac:(ok) ltac:(ok)) ltac:(reflexivity).
Example C31_vcdu_header_at2 := proj2 (proj2 (C31_vcdu_header hdr2 ltac:(ok) ltac:(ok))) ltac:(vm_compute; discriminate).
Example C31_vcdu_none_iff_at := C31_vcdu_none_iff hdr2 ltac:(ok).
(* C32 *)
Example C32_missing_frames_at := C32_missing_frames true 5 16777213 ltac:(reflexivity) ltac:(reflexivity).
Example C32_no_wrap_exact_at := C32_no_wrap_exact true 9 5 ltac:(reflexivity) ltac:(reflexivity).
Example C32_wrap_undercounts_refuted_at := C32_wrap_undercounts_refuted true 5 16777213 ltac:(reflexivity) ltac:(reflexivity).
Example C32_rollover_refuted_at := C32_rollover_refuted true 0 ltac:(reflexivity).
(* C33, C34: three channels, one of them fill; then an undecodable CADU *)
Definition cadus6 : list block := [cadu 1 5; cadu 2 9; cadu 1 8; cadu 63 1; cadu 63 9; cadu 2 10]%N.
Definition undecodable : block := mkBlock 0 (mkLoc 1 0) [0xff; 0; 0; 0; 0; 0]%N.
Example C33_frames_at : exists fs, yields (fdec_next true) (frame_decoder cadus6) fs /\ length fs = 6 /\
  forall i f, nth_error fs i = Some f -> exists c, nth_error cadus6 i = Some c /\ f_data f = bl_data c.
Proof.
  destruct C33_ex as (fs & Y & M). exists fs. split; [exact Y|]. split; [apply (f_equal (@length N)) in M; rewrite map_length in M; exact M|].
  intros i f H. destruct (proj1 (C33_frames true cadus6 fs Y) i f H) as (c & A & B & _). exists c. split; assumption.
Qed.
Lemma cadus6_regular : Forall (fun c => forall h, vcdu_decode (bl_data c) = Val (Some h) -> (v_counter h <> 2 ^ 24 - 1 \/ v_vcid h = 63)%N) cadus6.
Proof. repeat (apply Forall_cons; [intros h H; vm_compute in H; injection H as <-; left; vm_compute; discriminate|]). apply Forall_nil. Qed.
Example C33_total_at := C33_total true cadus6 ltac:(ok) (fun _ => cadus6_regular).
Lemma cadus6_decodable : Forall (fun c => vcdu_decode (bl_data c) <> Val None) cadus6.
Proof. repeat constructor; discriminate. Qed.
Example C34_stops_at_undecodable_refuted_at := fun frames =>
  C34_stops_at_undecodable_refuted true cadus6 undecodable [cadu 1 9]%N frames eq_refl cadus6_decodable.
Example C34_stops_exactly_there_at : exists fs, yields (fdec_next true) (frame_decoder cadus6) fs /\ length fs = length cadus6.
Proof. destruct C33_ex as (fs & Y & _). exists fs. split; [exact Y|]. exact (C34_stops_exactly_there true cadus6 fs Y cadus6_decodable). Qed.
(* C35: an insert zone of one byte and a trailer of two *)
Definition mframe : frame := mkFrame (mkVcdu 1 1 1 1) 0 None [1; 2; 3; 4; 5; 6; 99; 0x0f; 0xff; 10; 11; 77; 78]%N.
Example C35_mpdu_at := proj2 (C35_mpdu mframe 1 2 [1; 2; 3; 4; 5; 6; 99]%N [0x0f; 0xff; 10; 11]%N [77; 78]%N ltac:(ok) eq_refl eq_refl eq_refl) ltac:(ok).
Example C35_mpdu_at' := proj1 (C35_mpdu mframe 1 5 [1; 2; 3; 4; 5; 6; 99]%N [0x0f]%N [0xff; 10; 11; 77; 78]%N ltac:(ok) eq_refl eq_refl eq_refl) ltac:(ok).
Example C35_mpdu_panics_iff_at := C35_mpdu_panics_iff mframe 1 7 ltac:(ok).

(* C36: C36_ex applies both theorems. C37 - C39: two channels interleaved, in one of them a frame is lost *)
Definition mixed : list frame :=
  [ex_frame 3 0 0 (firstn 10 (stream ex_ws)); ex_frame 4 0 0 (firstn 10 (stream ex_ws));
   ex_frame 4 0 2047 (firstn 10 (skipn 10 (stream ex_ws))); ex_frame 3 1 0 (skipn 20 (stream ex_ws))].
Ltac frames := repeat (apply Forall_cons; [split; [repeat constructor; vm_compute; reflexivity|unfold long_enough; vm_compute; lia]|]); apply Forall_nil.
Lemma mixed_ok : frames_ok 1 2 mixed. Proof. frames. Qed.
Example C37_contribution_function_at : exists contribution : list frame -> frame -> list packet, forall dflt,
  yields (fpiter_next 1 2) (packet_decoder mixed)
    (concat (map (fun i => contribution (filter (is_chan (chan (nth i mixed dflt))) (firstn i mixed)) (nth i mixed dflt)) [0; 1; 2; 3])).
Proof. destruct (C37_contribution_function 1 2) as (c & H). exists c. intro dflt. exact (H mixed dflt mixed_ok). Qed.
Example C37_channels_independent_at := C37_channels_independent 1 2 mixed mixed_ok.
Example C38_packet_origin_at : exists ps, yields (fpiter_next 1 2) (packet_decoder mixed) ps /\ length ps = 4 /\
  forall p, In p ps -> proper p /\ exists v f0 rest, incl (f0 :: rest) (filter (is_chan v) mixed) /\ has_start 1 2 f0 = true.
Proof.
  destruct C37_C39_ex as (ps & Y & E). exists ps. split; [exact Y|]. split; [subst ps; reflexivity|].
  intros p I. destruct (C38_packet_origin 1 2 mixed ps p mixed_ok Y I) as (v & bef & f0 & rest & aft & earlier & suf & F & _ & _ & S & _ & _ & P).
  split; [exact P|]. exists v, f0, rest. split; [|exact S]. intros x X. rewrite F. apply in_or_app. right. apply in_or_app. left. exact X.
Qed.
Definition part1 : frame := ex_frame 3 0 0 (firstn 10 (stream ex_ws)).
Definition part3 (missing : N) : frame := ex_frame 3 missing 0 (skipn 20 (stream ex_ws)).
Definition broken2 : frame := mkFrame (mkVcdu 1 157 3 4) 0 (Some IUncorrectable) (f_data (ex_frame 3 0 2047 (firstn 10 (skipn 10 (stream ex_ws))))).
Lemma yields1 : yields (fpiter_next 1 2) (packet_decoder [part1]) [pk (ex_packet 5 3)].
Proof. apply run_yields with (fuel := 8). vm_compute. reflexivity. Qed.
Lemma yields3 : forall m, m = 0%N \/ m = 1%N -> yields (fpiter_next 1 2) (packet_decoder [part3 m]) [pk (ex_packet 7 2)].
Proof. intros m [->| ->]; (apply run_yields with (fuel := 8); vm_compute; reflexivity). Qed.
Example C39_restart_after_gap_at := C39_restart_after_gap 1 2 3 [part1] (part3 1) [] _ _ ltac:(frames) ltac:(ok) ltac:(discriminate) yields1 (yields3 1%N (or_intror eq_refl)).
Example C39_restart_after_errored_frame_at := C39_restart_after_errored_frame 1 2 3 [part1] broken2 [part3 0] _ _ ltac:(frames) ltac:(ok)
  (or_introl eq_refl) yields1 (yields3 0%N (or_introl eq_refl)).
(* C40 *)
Lemma mixed_bytes : Forall (fun f => bytes_ok (f_data f)) mixed.
Proof. eapply Forall_impl; [|exact mixed_ok]. intros f [H _]. exact H. Qed.
Lemma mixed_long : Forall (fun f => 6 + 1 + 2 + 2 <= length (f_data f)) mixed.
Proof. eapply Forall_impl; [|exact mixed_ok]. intros f [_ H]. exact H. Qed.
Example C40_no_panic_at := C40_no_panic 1 2 mixed mixed_bytes mixed_long.
Example C40_panics_iff_at := C40_panics_iff 1 2 (mixed ++ [mkFrame (mkVcdu 1 157 3 4) 0 None (repeat 0%N 10)])
  ltac:(apply Forall_app; split; [exact mixed_bytes|ok]).
