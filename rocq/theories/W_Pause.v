(* Theorems of C80, C81 and C82 applied to concrete, non-trivial cases: every hypothesis is met. *)
From Coq Require Import Permutation Sorted.
From Verif Require Import Base S_Framing S_RsPipeline S_Bits S_Packet S_Sync S_Frame S_FrameLive M_Reader M_Packet M_Bytes M_Sync M_Pn M_Frame M_FramePackets M_Group S_Group M_ReedSolomon M_RsPipeline M_Live S_Live S_Pause M_Pipeline M_Pause
  M_Timecode M_Merge S_Merge M_Cli S_Cli M_Main S_Main M_Write S_Write M_FrameLive S_ReedSolomon M_MergeLive S_MergeLive S_AnyFile L_Base L_Packet L_Live
  P_FramePackets P_Pause P_CliFilter P_CliFrame P_Main P_Main2 P_Merge P_Live P_LiveCmd P_Pipeline P_Rollover P_FrameLive P_MergeLive P_AnyFile W_Cli W_Live W_Write.
Open Scope nat_scope.

(* ---- C80 ---- *)
Example C80_packet_decoder_at := C80_packet_decoder _ (direct scripted) 1 2 (script pause_parts) pause_parts _ _ (proj1 C80_ex_packets) (proj1 (proj2 C80_ex_packets)) (proj1 (proj2 (proj2 C80_ex_packets))).
(* an AOS frame that is too short for its headers, after a pause *)
Definition short_frame : frame := mkFrame (mkVcdu 1 7 3 0) 0 None [64; 3; 0; 0; 0; 0]%N.
Definition short_parts : list (list frame) := [[nth 0 ex_fs short_frame]; [short_frame]].
Lemma short_panics : exists out, panics_after (fpiter_next 1 2) (packet_decoder (concat short_parts)) out /\ length out = 1.
Proof.
  assert (X : exists p s1, fpiter_next 1 2 (packet_decoder (concat short_parts)) = Val (Some p, s1) /\ fpiter_next 1 2 s1 = Panic) by (do 2 eexists; split; [vm_compute; reflexivity|vm_compute; reflexivity]).
  destruct X as (p & s1 & A & B). exists [p]. split; [|reflexivity]. eapply panics_cons; [exact A|]. apply panics_nil. exact B.
Qed.
Example C80_packet_decoder_panic_at : exists outs, sittings (unpack_next 1 2 (direct scripted)) (unpack_new (script short_parts)) outs Breaks /\ length (concat outs) = 1.
Proof.
  destruct short_panics as (out & P & L). destruct (C80_sources frame short_parts ltac:(discriminate)) as [ST SI].
  destruct (C80_packet_decoder_panic _ (direct scripted) 1 2 _ short_parts _ out ST SI P) as (outs & A & B & _). exists outs. split; [exact A|]. rewrite B. exact L.
Qed.
Example C80_frame_decoder_at : exists outs h', sittings (decoding_next true (direct scripted)) (decoding_new (script pause_cadus)) outs h' /\ length outs = 3.
Proof.
  destruct C80_ex_frames as (SI & [out Y] & _). destruct (C80_frame_decoder _ (direct scripted) true _ pause_cadus _ out SI Y) as (outs & h' & A & _ & L & _).
  exists outs, h'. split; [exact A|exact L].
Qed.
Definition roll_cadus : list (list block) := [[mkBlock 0 (mkLoc 0 0) (rx_frame 0xffffff)]; [mkBlock 0 (mkLoc 0 0) (rx_frame 0)]].
Example C80_frame_decoder_panic_at : exists outs, sittings (decoding_next true (direct scripted)) (decoding_new (script roll_cadus)) outs Breaks /\ length (concat outs) = 1.
Proof.
  destruct (C80_sources block roll_cadus ltac:(discriminate)) as [ST SI].
  assert (X : exists p s1, fdec_next true (frame_decoder (concat (concat (map cut roll_cadus)))) = Val (Some p, s1) /\ fdec_next true s1 = Panic) by (do 2 eexists; split; [vm_compute; reflexivity|vm_compute; reflexivity]).
  destruct X as (p & s1 & A & B).
  destruct (C80_frame_decoder_panic _ (direct scripted) true _ roll_cadus _ [p] SI) as (outs & Z & E & _); [eapply panics_cons; [exact A|]; apply panics_nil; exact B|].
  exists outs. split; [exact Z|]. rewrite E. reflexivity.
Qed.
Example C80_derandomize_at := C80_derandomize _ (direct scripted) (script pause_cadus) pause_cadus _ (proj1 C80_ex_frames).
Definition p80 (a f q : N) : packet := mkPacket (mkHeader 0 0 false a f q 0) [0; 0; 0; 0; 0; 0; 9]%N 0.
Definition g_parts : list (list packet) := [[p80 5 1 0; p80 5 0 1]; [p80 5 2 2; p80 7 3 0]; [p80 9 3 1]].
Example C80_groups_at : exists gs b, paused_groups g_parts gs b /\
  if b then exists t, pulls (ga_next (direct scripted)) (mkGather (script g_parts) None false) gs (EndsIn t) /\ forall n, ga_next (direct scripted) n t = Some (Val (None, t))
  else hands (ga_next (direct scripted)) (mkGather (script g_parts) None false) gs (mkGather [] None false).
Proof.
  destruct (C80_groups_total g_parts) as (gs & b & P & _). exists gs, b. split; [exact P|].
  destruct (C80_sources packet g_parts ltac:(discriminate)) as [ST SI]. exact (C80_groups _ (direct scripted) _ g_parts _ gs b ST SI P).
Qed.
Example C80_packets_lost_refuted_at := C80_packets_lost_refuted (p80 5 3 0) [p80 7 3 1] [] eq_refl.
Example C80_group_split_refuted_at := C80_group_split_refuted (p80 5 1 0) (p80 5 2 1) ltac:(discriminate) ltac:(discriminate) eq_refl.

(* ---- C81 ---- *)
Example C81_every_stream_at := C81_every_stream lx_reader ASM 8 ltac:(discriminate).
Example C81_one_way_at : exists items h, reads biter_next (synchronize lx_reader ASM 8) items h /\ keep_ok items = [lx_b1; lx_b2] /\
  forall items' h', reads biter_next (synchronize lx_reader ASM 8) items' h' -> h' = h /\ keep_ok items' = [lx_b1; lx_b2].
Proof.
  destruct C81_ex_reads as (items & R & K). exists items, Forever. split; [exact R|]. split; [exact K|]. intros items' h' R'.
  destruct (C81_one_way _ _ _ _ _ R' R) as (A & B & _). split; [exact A|]. rewrite B. exact K.
Qed.
Example C81_failing_device_at := C81_failing_device ASM 8 _ _ 5 ltac:(repeat constructor) ltac:(discriminate) (proj2 C81_ex_device) (proj1 C81_ex_device) eq_refl.
Lemma lx_frames : exists items frames, reads biter_next (synchronize lx_reader ASM 8) items Forever /\ frames_read true (cadus_of (frame_pipeline 8 false None false false 0 None 50) items) Running frames Running /\
  length frames = 2.
Proof.
  destruct C81_ex_reads as (items & R & K).
  assert (Y : exists f1 f2, yields (fdec_next true) (frame_decoder [lx_b1; lx_b2]) [f1; f2]) by (do 2 eexists; eapply run_yields with (fuel := 10); vm_compute; reflexivity).
  destruct Y as (f1 & f2 & Y). exists items, [f1; f2]. split; [exact R|]. split; [|reflexivity].
  unfold cadus_of. cbn [frame_pipeline pl_derandomize]. change (pl_derandomize (frame_pipeline 8 false None false false 0 None 50)) with false. rewrite K.
  exact (fr_yields true _ (status_of (@Forever biter)) _ Y).
Qed.
Example C81_frames_at : exists frames h', length frames = 2 /\ pulls (frames_live true false) (frames_new lx_reader 8) frames h' /\ status_of h' = Running.
Proof.
  destruct lx_frames as (items & frames & R & F & L). destruct (C81_frames true (frame_pipeline 8 false None false false 0 None 50) lx_reader items Forever frames Running R F) as (h' & A & B).
  exists frames, h'. split; [exact L|]. split; [exact A|exact B].
Qed.
Example C81_crash_points_at : exists p q out out' s s', framing_command_live true any (Some lx_reader) (fx_args None None) 1 = (p, out, s) /\
  framing_command_live true any (Some lx_reader) (fx_args None None) 20 = (q, out', s') /\ match out, out' with Some x, Some y => exists z, y = x ++ z | None, None => True | _, _ => False end.
Proof.
  destruct (framing_command_live true any (Some lx_reader) (fx_args None None) 1) as [[p out] s] eqn:A. destruct (framing_command_live true any (Some lx_reader) (fx_args None None) 20) as [[q out'] s'] eqn:B.
  exists p, q, out, out', s, s'. split; [reflexivity|]. split; [reflexivity|]. exact (proj2 (proj2 (C81_crash_points true any (Some lx_reader) (fx_args None None) 1 20 p q out out' s s' ltac:(lia) A B))).
Qed.
Example C81_on_files_at : exists out s, eventually (framing_command_live true (fun _ => true) (Some (reader_of (ASM ++ fx_frame 3 ++ ASM ++ fx_frame 63))) (fx_args None None)) (Exited Success, Some out, s) /\ out = fx_frame 3.
Proof.
  destruct (C59_ex ok_codec 2) as (all & rows & R & _).
  destruct (C81_on_files true ok_codec 2 _ fx_fs (fx_args None None) 8 (frame_pipeline 8 false None false false 0 None 50) [3]%N [] _ _ _ _ eq_refl eq_refl eq_refl R) as (out & E & W).
  cbn [fr_output fx_args] in W. destruct out as [out|]; [|discriminate]. exists out, (Some (all, rows)). split; [exact E|]. cbn [aset fx_fs] in W. injection W as W. symmetry. exact W.
Qed.
Lemma rs_read : exists b f, reads biter_next (synchronize lx_rs_reader ASM (pl_block_length rx_p)) [Ok b] Forever /\ frames_read true (cadus_of rx_p [Ok b]) Running [f] Running /\
  rs_job ok_codec (rs_of_opts (mkRsOpts 1 215 1 3 true true)) f = Val (mkFrame (mkVcdu 1 0 3 5) 0 (Some IOk) (rx_frame 5)).
Proof.
  assert (R : exists b, reads biter_next (synchronize lx_rs_reader ASM (pl_block_length rx_p)) [Ok b] Forever /\ bl_data b = rx_frame 5 ++ repeat 77%N 32).
  { eexists. split.
    - eapply reads_item; [vm_compute; reflexivity|]. apply reads_fail. eapply fails_again; [vm_compute; reflexivity|]. cofix CH. eapply fails_again; [vm_compute; reflexivity|]. exact CH.
    - vm_compute. reflexivity. }
  destruct R as (b & R & D). destruct b as [bl bc bd]. cbn [bl_data] in D. subst bd. do 2 eexists. split; [exact R|]. split.
  - assert (Y : exists f, yields (fdec_next true) (frame_decoder [mkBlock bl bc (rx_frame 5 ++ repeat 77%N 32)]) [f] /\ f = mkFrame (mkVcdu 1 0 3 5) 0 None (rx_frame 5 ++ repeat 77%N 32)).
    { eexists. split; [eapply run_yields with (fuel := 10); vm_compute; reflexivity|]. vm_compute. reflexivity. }
    destruct Y as (f & Y & ->). exact (fr_yields true _ (status_of (@Forever biter)) _ Y).
  - vm_compute. reflexivity.
Qed.
Example C81_rs_at : exists s c n seen, framing_rs_live true ok_codec 2 8 rx_p (mkRsOpts 1 215 1 3 true true) false [] [] true lx_rs_reader s c Running /\ fc_out c = rx_frame 5 /\ n <= 1 /\
  Forall2 (fun f f' => rs_job ok_codec (rs_of_opts (mkRsOpts 1 215 1 3 true true)) f = Val f') (firstn n [mkFrame (mkVcdu 1 0 3 5) 0 None (rx_frame 5 ++ repeat 77%N 32)]) seen.
Proof.
  destruct C81_ex_rs as (p & o & s & c & EP & EO & H & OUT).
  assert (p = rx_p) by (assert (X : framing_setup rx_args = Some (8, rx_p, [], [])) by (vm_compute; reflexivity); congruence). subst p. injection EO as <-.
  assert (R : exists bl bc, reads biter_next (synchronize lx_rs_reader ASM (pl_block_length rx_p)) [Ok (mkBlock bl bc (rx_frame 5 ++ repeat 77%N 32))] Forever).
  { do 2 eexists. eapply reads_item; [vm_compute; reflexivity|]. apply reads_fail. eapply fails_again; [vm_compute; reflexivity|]. cofix CH. eapply fails_again; [vm_compute; reflexivity|]. exact CH. }
  destruct R as (bl & bc & R).
  assert (Y : exists f, yields (fdec_next true) (frame_decoder [mkBlock bl bc (rx_frame 5 ++ repeat 77%N 32)]) [f] /\ f = mkFrame (mkVcdu 1 0 3 5) 0 None (rx_frame 5 ++ repeat 77%N 32)).
  { eexists. split; [eapply run_yields with (fuel := 10); vm_compute; reflexivity|]. vm_compute. reflexivity. }
  destruct Y as (f & Y & ->).
  destruct (C81_rs true ok_codec 2 8 rx_p _ false [] [] true lx_rs_reader _ _ _ Running s c Running R (fr_yields true _ (status_of (@Forever biter)) _ Y) H) as (n & seen & sel & good & L & F & _).
  exists s, c, n, seen. split; [exact H|]. split; [exact OUT|]. split; [exact L|exact F].
Qed.
Example C81_frames_total_at := C81_frames_total true [mkBlock 0 (mkLoc 0 0) (rx_frame 0xffffff); mkBlock 0 (mkLoc 0 0) (rx_frame 0)] Running.
Example C81_output_over_input_refuted_at := C81_output_over_input_refuted true any [(1%N, ASM ++ fx_frame 3)]
  (mkFramingArgs None 8 false false None false false 0 None 50 [] [] (Some 1%N) 1%N) 8 (frame_pipeline 8 false None false false 0 None 50) [] [] _ eq_refl eq_refl eq_refl eq_refl eq_refl.

(* ---- C82: one input that holds two packets (of apids 7 and 8), and is the same when it is read again ---- *)
Definition in82 : input := mkInput (reader_of two_bytes) (fun _ off => inr (reader_of (skipn off two_bytes))).
Definition ins82 (p : N) : option input := if (p =? 5)%N then None else Some in82.
Definition m82 : merger := merger_new [1; 2]%N cds_time.
Definition gs82 : list pgroup := map (fun p => mkGroup (apid_of p) [p]) (packets_at 0 two).
Lemma found82 : forall m, ~ In 5%N (mg_paths m) -> all_found ins82 m (fun _ => gs82).
Proof.
  intros m N5 p I. exists in82. split; [|exact C79_group_inputs_at1]. unfold ins82. destruct (N.eqb_spec p 5) as [->|]; [contradiction|reflexivity].
Qed.
Lemma five82 : ~ In 5%N [1; 2]%N. Proof. intros [E|[E|[]]]; discriminate. Qed.
Example C82_merge_at := C82_merge keep_order ins82 m82 [8; 7]%N (fun _ => gs82) wr eq_refl keep_order_ok (found82 (with_apid_order m82 [8; 7]%N) five82).
Example C82_every_input_at := C82_every_input ins82 m82 ltac:(intros p [<-|[<-|[]]]; exists in82; split; [reflexivity|exact of_two|reflexivity|exact of_two]).
Example C82_unopened_at := C82_unopened keep_order ins82 (merger_new [1; 5]%N cds_time) wr ltac:(exists 5%N; split; [right; left; reflexivity|reflexivity]).
Lemma same82 : read_well (in_first in82) two_bytes two /\ has_now in82 (two_bytes ++ []).
Proof.
  split; [split; [exact two_holds|left; reflexivity]|]. intros k off. right. eexists. split; [reflexivity|]. left. rewrite app_nil_r. apply reader_of_as.
Qed.
Example C82_same_files_at := C82_same_files keep_order ins82 m82 [8; 7]%N (fun _ => two) wr eq_refl keep_order_ok
  ltac:(intros p [<-|[<-|[]]]; exists in82, two_bytes, []; (split; [reflexivity|exact same82])).
Lemma now82 : reads_now in82 two_bytes.
Proof. intros k off. eexists. split; [reflexivity|apply reader_of_as]. Qed.
Example C82_changed_files_at := C82_changed_files keep_order ins82 m82 [8; 7]%N (fun _ => gs82) (fun _ => two_bytes) wr eq_refl keep_order_ok (found82 (with_apid_order m82 [8; 7]%N) five82)
  ltac:(intros p i [<-|[<-|[]]] E; injection E as <-; exact now82).
Example C82_agrees_at := C82_agrees in_order_h keep_order (fun p => if (p =? 1)%N then Some two_bytes else Some af_bytes) m82 wr ltac:(reflexivity) eq_refl hok
  ltac:(intros p bs [<-|[<-|[]]] E; injection E as <-; [exact two_ok|exact af_ok]).
Example C82_command_at := C82_command keep_order any true ins82 [WAccept 4; WFail (OtherIo 28)] Accepts (mg1 true 9%N [1; 2]%N) [8; 7]%N (fun _ => gs82) keep_order_ok
  ltac:(left; reflexivity) eq_refl ltac:(discriminate) eq_refl (found82 (asked_merger (mg1 true 9%N [1; 2]%N) [8; 7]%N) five82).
Example C82_command_refuses_at := proj1 (C82_command_refuses keep_order any true ins82 [] Accepts (mg1 false 9%N [1]%N) 7) ltac:(left; split; reflexivity).
Example C82_command_refuses_at2 := proj2 (C82_command_refuses keep_order any true ins82 [] Accepts (mg1 true 9%N [1; 5]%N) 7) ltac:(left; reflexivity) eq_refl
  ltac:(exists [8; 7]%N; reflexivity) ltac:(right; exists 5%N; split; [right; left; reflexivity|reflexivity]).
Definition dead82 : input := mkInput ex_reader (fun _ _ => inl (OtherIo 5)).
Lemma read82 : all_read (fun p => if (p =? 1)%N then Some in82 else Some dead82) m82 (fun p => if (p =? 1)%N then gs82 else [mkGroup 5 ex_ps]) (fun p => if (p =? 1)%N then Returned else Running).
Proof.
  intros p [<-|[<-|[]]]; cbn; eexists; (split; [reflexivity|]); [exact C79_group_inputs_at1|exact C79_group_inputs_at3].
Qed.
Example C82_index_fails_at := proj1 (proj2 (C82_index_fails keep_order _ m82 _ _ wr keep_order_ok read82)) ltac:(exists 2%N; split; [right; left; reflexivity|reflexivity])
  ltac:(intros p [<-|[<-|[]]]; discriminate).
