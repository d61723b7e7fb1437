(* Theorems of C62 - C74 applied to concrete, non-trivial cases: every hypothesis is met. *)
From Coq Require Import Permutation Sorted.
From Verif Require Import M_Bytes M_Cli M_Frame M_FramePackets M_Group M_Main M_Merge M_Packet M_Pipeline M_Pn M_Reader M_ReedSolomon M_RsPipeline M_Sync M_Timecode S_Bits S_Cli S_Diff S_Frame S_Framing S_Group S_InfoTotals S_Main S_Merge S_Packet S_Pn S_Resume S_Sync S_SyncDirect Base L_Base L_Packet L_Group L_Merge
  P_CliFilter P_CliDiff P_CliInfo P_CliFrame P_Pipeline P_RsPipeline P_Main P_Main2 P_ReadErr P_Builder P_Causal P_CliDiff2 P_Ints P_Resume P_Rollover P_SyncDirect W_Cli.
Open Scope N_scope.
Ltac ok := first [ reflexivity | discriminate | lia | (cbn; lia) | solve [repeat constructor; cbn; (reflexivity || lia || discriminate)] ].
Ltac run9 := eapply run_yields with (fuel := 9%nat); vm_compute; reflexivity.
Ltac fall := repeat (apply Forall_cons; [first [exact I | cbn; reflexivity | cbn; lia | vm_compute; discriminate]|]); apply Forall_nil.

(* ---- C62 ---- *)
Definition p62 (a : N) : packet := mkPacket (mkHeader 0 0 false a 3 1 0) [0; a; 192; 1; 0; 0; 9] 0.
Example C62_read_errors_at := C62_read_errors sum8 true (Some cds_time) (Io (OtherIo 1)) [p62 5; p62 6] [Ok (p62 7); Err (Io Interrupted)] [Ok (p62 5)] [] [6] None (Some 0%Z).
Example C62_read_errors_at1 := proj1 (proj2 C62_read_errors_at) ltac:(right; discriminate).
Example C62_read_errors_at2 := proj1 (C62_read_errors sum8 true None (Io (OtherIo 1)) [p62 5; p62 6] [Ok (p62 7)] [Ok (p62 5)] [] [6] None None) ltac:(split; reflexivity).

(* ---- C64: a packet in two reads with an interruption in between, then the next one cut short by a failing read ---- *)
Definition w64 : wire_packet := mkWire (mkHeader 0 0 false 9 3 1 0) [42].
Definition r64 : reader := mkReader [EvData (firstn 3 (wire_bytes w64)); EvFail Interrupted; EvData (skipn 3 (wire_bytes w64) ++ [8; 1; 192]); EvFail (OtherIo 3); EvData [1]] AtEof.
Example C64_read_packet_at := C64_read_packet r64 w64 [TByte 8; TByte 1; TByte 192; TErr (OtherIo 3); TByte 1] ltac:(ok) ltac:(vm_compute; discriminate) eq_refl ltac:(fall).
Example C64_read_incomplete_at := C64_read_incomplete (mkReader [EvData [8; 1; 192]; EvFail (OtherIo 3); EvData [1]] AtEof) [8; 1; 192] (OtherIo 3) [TByte 1]
  ltac:(ok) ltac:(left; cbn; lia) ltac:(cbn; lia) ltac:(fall) ltac:(left; reflexivity).
Example C64_read_incomplete_at2 := C64_read_incomplete (mkReader [EvData [8; 1; 192; 0; 0; 5; 77]] AtEof) [8; 1; 192; 0; 0; 5; 77] UnexpectedEof []
  ltac:(ok) ltac:(right; vm_compute; lia) ltac:(vm_compute; discriminate) ltac:(fall) ltac:(right; right; repeat split).

(* ---- C65 ---- *)
Example C65_frames_are_blocks_at : exists frames items, map f_data frames = [[64; 5; 0; 0; 7; 0; 1; 2]] /\
  yields biter_next (synchronize (reader_of bx_bytes) [26; 207; 252; 29] 8) items /\ forall i f, nth_error frames i = Some f -> f_integrity f = None.
Proof.
  destruct (C65_ex ok_codec 2) as (frames & P & D). destruct (C65_frames_are_blocks true ok_codec 2 8 true _ frames P) as (items & Y & H).
  exists frames, items. split; [exact D|]. split; [exact Y|]. intros i f N. exact (proj1 (H i f N)).
Qed.
Definition o65 : rs_opts := mkRsOpts 1 215 1 3 true true.
Example C65_builder_calls_at := C65_builder_calls true ok_codec 2 (pipeline_new 40) o65 (mkRsOpts 2 0 1 3 false true) (reader_of rx_stream).
Example C65_with_rs_at : exists out frames s, pipeline_start true ok_codec 2 rx_p (reader_of rx_stream) out /\ out <> [] /\
  reachable (rs_job ok_codec (rs_of_opts o65)) 3 2 frames s /\ st_recv s = out.
Proof.
  destruct C68_ex as (_ & [out P] & A). destruct (C65_with_rs true ok_codec 2 _ o65 _ out P) as (frames & _ & s & R & _ & E).
  exists out, frames, s. split; [exact P|]. split; [intro X; assert (Y := A out P); subst out; rewrite X in Y; discriminate|]. split; [exact R|exact E].
Qed.

(* ---- C66 ---- *)
Definition r66 (n : nat) : reader := mkReader [EvData (firstn n (two_bytes ++ [9; 9]))] AtEof.
Example C66_packets_from_bytes_at : exists items1 items2 : list (result packet), starts_with items2 items1 /\ length items1 = 1%nat /\ length items2 = 2%nat.
Proof.
  do 2 eexists. split; [eapply (C66_packets_from_bytes (r66 17) (r66 32) (map TByte (skipn 17 (two_bytes ++ [9; 9]))))|].
  - vm_compute. fall.
  - reflexivity.
  - reflexivity.
  - run9.
  - run9.
  - split; reflexivity.
Qed.
Definition b66 : list N := [26; 207; 252; 29; 1; 2; 3].
Example C66_blocks_from_bytes_at : exists items1 items2 b, nth_error items1 0%nat = Some (Ok b) /\ bl_data b = [1; 2; 3] /\ nth_error items2 0%nat = Some (Ok b) /\ length items2 = 2%nat.
Proof.
  assert (A : exists items1 b, yields biter_next (synchronize (mkReader [EvData b66] AtEof) ASM 3) items1 /\ nth_error items1 0%nat = Some (Ok b) /\ bl_loc b = mkLoc 5 0 /\ bl_data b = [1; 2; 3])
    by (do 2 eexists; split; [run9|repeat split; reflexivity]).
  assert (B : exists items2, yields biter_next (synchronize (mkReader [EvData (b66 ++ b66)] AtEof) ASM 3) items2 /\ length items2 = 2%nat) by (eexists; split; [run9|reflexivity]).
  destruct A as (i1 & b & Y1 & N1 & L & D). destruct B as (i2 & Y2 & L2). exists i1, i2, b. split; [exact N1|]. split; [exact D|]. split; [|exact L2].
  apply (C66_blocks_from_bytes ASM 3 (mkReader [EvData b66] AtEof) (mkReader [EvData (b66 ++ b66)] AtEof) b66 b66 i1 i2 ltac:(ok) ltac:(discriminate) ltac:(ok) ltac:(split; reflexivity) ltac:(split; reflexivity) Y1 Y2 0%nat b 32%nat N1).
  - rewrite L. repeat split; cbn; lia.
  - cbn. lia.
Qed.
Definition cadu (c : N) : block := mkBlock 0 (mkLoc 0 0) (rx_frame c).
Example C66_frames_from_cadus_at : exists f1 f2 : list frame, starts_with f2 f1 /\ length f1 = 2%nat /\ length f2 = 3%nat.
Proof. do 2 eexists. split; [eapply (C66_frames_from_cadus true [cadu 5; cadu 9] [cadu 10]); [run9|run9]|split; reflexivity]. Qed.
Definition fr66 (c : N) (pl : list N) : frame := mkFrame (mkVcdu 1 7 3 c) 0 None ([64; 3; 0; 0; 0; 0] ++ [0; 0] ++ pl).
Example C66_packets_from_frames_at : exists p1 p2 : list packet, starts_with p2 p1 /\ length p1 = 1%nat /\ length p2 = 2%nat.
Proof.
  do 2 eexists. split; [eapply (C66_packets_from_frames 0 0 [fr66 0 (wire_bytes w64)] [fr66 1 (wire_bytes w64)]); [run9|run9]|split; reflexivity].
Qed.
Definition p66 a f q := mkPacket (mkHeader 0 0 false a f q 0) [0; 0; 0; 0; 0; 0; 9]%N 0.
Example C66_groups_from_packets_at := C66_groups_from_packets _ _ [mkGroup 5 [p66 5 3 0]] (mkGroup 7 [p66 7 1 1; p66 7 0 2]) _ (proj1 C66_ex) (proj2 C66_ex).

(* ---- C68 ---- *)
Definition cs68 : list block := [cadu 0xfffffe; cadu 0xffffff; cadu 0; cadu 1].
Example C68_panics_exactly_at : exists frames, length frames = 2%nat /\ panics_after (fdec_next true) (frame_decoder cs68) frames /\ previous_counter 3 frames = Some 0xffffff.
Proof.
  eexists [_; _]. split; [reflexivity|].
  match goal with |- panics_after _ _ ?fs /\ _ => assert (Z : panics_after (fdec_next true) (frame_decoder cs68) fs) end.
  { eapply panics_cons; [vm_compute; reflexivity|]. eapply panics_cons; [vm_compute; reflexivity|]. apply panics_nil. vm_compute. reflexivity. }
  split; [exact Z|].
  destruct (proj1 (C68_panics_exactly true cs68 _ ltac:(repeat constructor)) Z) as (_ & _ & c & h & N & D & _ & P & _).
  injection N as <-. vm_compute in D. injection D as <-. exact P.
Qed.
Example C68_ends_or_panics_at := C68_ends_or_panics true cs68.

(* ---- C69 ---- *)
Definition dl : list wire_packet := [fl_wire 7 1; fl_wire 8 1].
Definition dr : list wire_packet := [fl_wire 9 1; fl_wire 7 1; fl_wire 7 1; fl_wire 9 2].
Lemma dl_holds : file_holds (wire_bytes (fl_wire 7 1) ++ wire_bytes (fl_wire 8 1)) dl.
Proof. exact (holds dl ltac:(repeat constructor) ltac:(repeat constructor; vm_compute; discriminate)). Qed.
Lemma dr_holds : file_holds (wire_bytes (fl_wire 9 1) ++ wire_bytes (fl_wire 7 1) ++ wire_bytes (fl_wire 7 1) ++ wire_bytes (fl_wire 9 2)) dr.
Proof. exact (holds dr ltac:(repeat constructor) ltac:(repeat constructor; vm_compute; discriminate)). Qed.
Example C69_diff_prints_at := C69_diff_prints sum8 dx_fs true 1 2 _ _ dl dr (wkey sum8 (fl_wire 9 2)) eq_refl eq_refl dl_holds dr_holds
  ltac:(right; right; right; right; left; reflexivity)
  ltac:(intros x [[<-|[<-|[]]]|[<-|[<-|[<-|[<-|[]]]]]]; first [right; reflexivity | left; left; reflexivity | left; right; vm_compute; repeat split; auto]).
Definition none_fs : fsys := [(1, [9; 9; 9]); (2, [])].
Lemma none_holds : file_holds [9; 9; 9] [].
Proof. split; [constructor|]. split; [constructor|]. exists [9; 9; 9]. repeat split; [repeat constructor|left; cbn; lia|cbn; lia]. Qed.
Lemma nil_holds : file_holds [] [].
Proof. exact (holds [] ltac:(constructor) ltac:(constructor)). Qed.
Example C69_diff_nothing_at := proj1 (C69_diff_nothing sum8 none_fs true 1 2) _ _ eq_refl eq_refl none_holds nil_holds.
Example C69_diff_nothing_at2 := proj2 (C69_diff_nothing sum8 dx_fs true 1 5) ltac:(right; split; [eexists; exists dl; split; [reflexivity|exact dl_holds]|reflexivity]).
Example C69_diff_same_file_at := C69_diff_same_file sum8 dx_fs true 2 _ dr eq_refl dr_holds ltac:(discriminate).
Example C69_info_command_at := C69_info_command true dx_fs 2 _ dr true eq_refl dr_holds.
Example C69_info_missing_file_at := C69_info_missing_file true dx_fs 5 true eq_refl.

(* ---- C70 ---- *)
Definition r70 : reader := mkReader [EvData (gx 7 ++ gx 8 ++ [8; 1; 192]); EvData []; EvData (gx 9)] AtEof.
Example C70_one_pass_at := C70_one_pass [fl_wire 7 1; fl_wire 8 1] [8; 1; 192] (map TByte (gx 9)) (mkPdec r70 5) eq_refl ltac:(repeat constructor)
  ltac:(repeat constructor; vm_compute; discriminate) ltac:(ok) ltac:(left; cbn; lia) ltac:(cbn; lia) ltac:(fall).
Definition r70w : reader := mkReader [EvData (gx 7 ++ gx 8); EvData []; EvData []; EvData (gx 9); EvData []] AtEof.
Example C70_whole_packets_at := C70_whole_packets [[fl_wire 7 1; fl_wire 8 1]; []; [fl_wire 9 1]] r70w eq_refl ltac:(repeat constructor) ltac:(repeat constructor; vm_compute; discriminate).
Example C70_split_packet_refuted_at := C70_split_packet_refuted [fl_wire 7 1] (fl_wire 8 1) (firstn 3 (gx 8)) (skipn 3 (gx 8)) (gx 9)
  (mkReader [EvData (gx 7 ++ firstn 3 (gx 8)); EvData []; EvData (skipn 3 (gx 8) ++ gx 9)] AtEof) (mkReader [EvData (skipn 3 (gx 8) ++ gx 9)] AtEof)
  eq_refl ltac:(discriminate) ltac:(repeat constructor) ltac:(repeat constructor; vm_compute; discriminate) ltac:(ok) eq_refl eq_refl eq_refl.

(* ---- C71, C72 ---- *)
Definition r71 : reader := mkReader [EvData [1; 0; 170]; EvData [85; 1; 1]] AtEof.
Definition calls71 : list call := [CallScan; CallScan; CallBlock; CallScan; CallScan].
Example C71_any_order_exact_at := C71_any_order_exact [1] 1 r71 [1; 0; 170; 85; 1; 1] calls71 ltac:(ok) ltac:(discriminate) ltac:(ok) ltac:(split; reflexivity).
Example C71_every_call_returns_at := C71_every_call_returns [1] 1 (mkReader [EvData [1; 0]; EvFail (OtherIo 3); EvData [85; 1; 1]] (Failing 7)) calls71 ltac:(discriminate).
Definition ans71 : list answer := [AFound (mkLoc 2 0); AFound (mkLoc 3 7); ABlock [84]; AFound (mkLoc 6 0); AFound (mkLoc 7 0)].
Lemma run71 : exists s', run_calls calls71 (syncer_new r71 1 [1]) = Val (ans71, s').
Proof. eexists. vm_compute. reflexivity. Qed.
Lemma few71 : forall i, (i < 8)%nat -> (Z.of_nat (times_found i ans71) < 2147483648)%Z.
Proof.
  intros i _. assert (X : (times_found i ans71 <= 5)%nat); [|lia]. unfold times_found.
  assert (L : forall f : answer -> bool, (length (filter f ans71) <= length ans71)%nat); [|exact (L _)].
  intro f. generalize ans71. induction l as [|x l IH]; [apply Nat.le_refl|]. cbn [filter]. destruct (f x); cbn [length]; lia.
Qed.
Example C72_hits_at : exists s' h, run_calls_hits true calls71 (syncer_new r71 1 [1]) [] = Val (ans71, s', h) /\ hit_get h 0 = Some 3%Z.
Proof.
  destruct run71 as [s' R]. destruct (C72_hits true [1] 1 r71 calls71 ans71 s' ltac:(discriminate) R few71) as (h & E & H). exists s', h. split; [exact E|]. rewrite H. reflexivity.
Qed.
Example C72_overflow_panics_refuted_at : run_calls_hits true calls71 (syncer_new r71 1 [1]) [] <> Panic.
Proof.
  destruct run71 as [s' R]. intro P. destruct (proj1 (C72_overflow_panics_refuted [1] 1 r71 calls71 ans71 s' ltac:(discriminate) R) P) as (i & L & H). assert (X := few71 i L). lia.
Qed.
Example C72_wraps_at : exists s' h, run_calls_hits false calls71 (syncer_new r71 1 [1]) [] = Val (ans71, s', h) /\ hit_get h 1 = Some 1%Z.
Proof.
  destruct run71 as [s' R]. destruct (C72_wraps [1] 1 r71 calls71 ans71 s' ltac:(discriminate) R) as (h & E & H). exists s', h. split; [exact E|].
  destruct (H 1%nat ltac:(lia) ltac:(cbn; lia)) as (c & G & B & k & K). rewrite G. f_equal. change (Z.of_nat (times_found 1 ans71)) with 1%Z in K. lia.
Qed.
Example C72_iterator_at : exists items, length items = 2%nat /\ yields (biter_next_hits true) (synchronize (mkReader [EvData (b66 ++ b66)] AtEof) ASM 3, []) items.
Proof.
  assert (B : exists items2, yields biter_next (synchronize (mkReader [EvData (b66 ++ b66)] AtEof) ASM 3) items2 /\ length items2 = 2%nat) by (eexists; split; [run9|reflexivity]).
  destruct B as (items & Y & L). exists items. split; [exact L|]. apply C72_iterator; [exact Y|]. rewrite L. lia.
Qed.

(* ---- C73 ---- *)
Example C73_missing_packets_checked_at := C73_missing_packets_checked 100 20000 ltac:(lia) ltac:(lia).
Example C73_missing_packets_wrapping_at := C73_missing_packets_wrapping 100 20000 ltac:(lia) ltac:(lia).
Example C73_missing_frames_checked_at := C73_missing_frames_checked 5 20000000 ltac:(reflexivity) ltac:(reflexivity).
Example C73_missing_frames_wrapping_at := C73_missing_frames_wrapping 5 20000000 ltac:(reflexivity) ltac:(reflexivity).

(* ---- C74 ---- *)
Example C74_packet_kinds_at : exists p, packet_decode [8; 1; 64; 0; 0; 0; 7] = Val (Ok p) /\ is_first p = true.
Proof.
  assert (X : exists p, packet_decode [8; 1; 64; 0; 0; 0; 7] = Val (Ok p)) by (eexists; vm_compute; reflexivity). destruct X as [p X]. exists p. split; [exact X|].
  apply (C74_packet_kinds [8; 1; 64; 0; 0; 0; 7] p ltac:(ok) X). reflexivity.
Qed.
Example C74_frame_fill_at : exists f, frame_decode [64; 63; 0; 0; 0; 0] = Val (Some f) /\ frame_is_fill f = true.
Proof.
  assert (X : exists f, frame_decode [64; 63; 0; 0; 0; 0] = Val (Some f)) by (eexists; vm_compute; reflexivity). destruct X as [f X]. exists f. split; [exact X|].
  apply (C74_frame_fill [64; 63; 0; 0; 0; 0] f ltac:(ok) X). split; reflexivity.
Qed.
Example C74_mpdu_at := proj2 (C74_mpdu [7; 254; 1] ltac:(ok)) ltac:(cbn; lia).
Example C74_integrity_ok_at : exists f' i, rs_job ok_codec (rs_of_opts o65) (mkFrame (mkVcdu 1 0 3 5) 0 None (rx_frame 5 ++ repeat 77 32)) = Val f' /\ f_integrity f' = Some i /\
  exists d, perform ok_codec (rs_of_opts o65) (rx_frame 5 ++ repeat 77 32) = Val (Ok (i, d)) /\ f_data f' = (if integrity_ok i then d else rx_frame 5 ++ repeat 77 32).
Proof.
  assert (X : exists f' i, rs_job ok_codec (rs_of_opts o65) (mkFrame (mkVcdu 1 0 3 5) 0 None (rx_frame 5 ++ repeat 77 32)) = Val f' /\ f_integrity f' = Some i)
    by (do 2 eexists; split; vm_compute; reflexivity).
  destruct X as (f' & i & J & K). exists f', i. split; [exact J|]. split; [exact K|].
  destruct (C74_integrity_ok ok_codec (rs_of_opts o65) _ f' i J K eq_refl) as (d & A & B & _). exists d. split; [exact A|exact B].
Qed.
