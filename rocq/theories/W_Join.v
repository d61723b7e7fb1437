(* Theorems of C104 applied to concrete, non-trivial cases: every hypothesis is met. *)
From Coq Require Import Permutation Sorted.
From Verif Require Import Base S_Bits M_Reader M_Sync S_Sync M_Packet M_Group M_Frame M_FramePackets S_Packet S_Group M_Timecode L_Base L_Bits L_Packet L_Group M_Merge S_Merge L_Merge P_Merge P_Sync
  M_Cli S_Cli P_CliFilter P_CliInfo S_InfoTotals M_Main S_Main P_Main S_Compose L_Compose P_Compose S_FramePackets P_FramePackets S_Join P_Join P_JoinLink P_JoinNot P_Order.
Open Scope N_scope.
Ltac fall := repeat (apply Forall_cons; [first [exact I | cbn; reflexivity | cbn; lia | vm_compute; discriminate]|]); apply Forall_nil.
Ltac filed_ok := split; [repeat constructor|repeat constructor; vm_compute; discriminate].
Ltac owr := first [apply only_written_aset2 | apply only_written_aset].

(* ---- packets ---- *)
Definition j_a : list wire_packet := [mg_wire 7 1 0 22000 [1]; mg_wire 7 2 1 22000 []; mg_wire 8 3 0 22000 [9]].
Definition j_b : list wire_packet := [mg_wire 7 1 5 22001 [2]; mg_wire 7 2 6 22001 []; mg_wire 9 3 3 22000 [4]].
Lemma j_filed : filed j_a /\ filed j_b. Proof. split; filed_ok. Qed.
Lemma j_file : file_holds (stream j_b) j_b. Proof. apply wires_file; apply j_filed. Qed.
(* the second recording ends inside a packet, and has a failing read before it *)
Definition j_more : list event := [EvData (stream j_b); EvFail (OtherIo 3); EvData [8; 7; 0]].
Example C104_packets_at : yields pdec_next (pdec_new (mkReader (EvData (stream j_a) :: j_more) AtEof))
  (map Ok (packets_at 0 j_a) ++ map (later_item 44) (fst (run pdec_next 9%nat (pdec_new (mkReader j_more AtEof))))).
Proof.
  assert (E := C104_packets j_a (mkReader (EvData (stream j_a) :: j_more) AtEof) (mkReader j_more AtEof) (transcript j_more) (proj1 j_filed) eq_refl ltac:(vm_compute; fall) eq_refl eq_refl).
  apply (proj1 E). apply run_yields with (fuel := 9%nat). vm_compute. reflexivity.
Qed.
Definition j_cut : wire_packet := mg_wire 9 3 4 22000 [5; 6].
Example C104_cut_packet_at : yields pdec_next (pdec_new (reader_of ((stream j_a ++ firstn 12 (wire_bytes j_cut)) ++ stream j_b)))
  (map Ok (packets_at 0 j_a) ++ Ok (mkPacket (w_header j_cut) (firstn 12 (wire_bytes j_cut) ++ firstn 4 (stream j_b)) 44) ::
     map (later_item 60) (fst (run pdec_next 9%nat (pdec_new (reader_of (skipn 4 (stream j_b))))))).
Proof.
  assert (F : filed (j_a ++ [j_cut])) by filed_ok.
  assert (K : (6 <= length (firstn 12 (wire_bytes j_cut)))%nat) by (vm_compute; repeat constructor).
  assert (Y : yields pdec_next (pdec_new (reader_of (skipn 4 (stream j_b)))) (fst (run pdec_next 9%nat (pdec_new (reader_of (skipn 4 (stream j_b)))))))
    by (apply run_yields with (fuel := 9%nat); vm_compute; reflexivity).
  exact (C104_cut_packet_refuted j_a j_cut (firstn 12 (wire_bytes j_cut)) (skipn 12 (wire_bytes j_cut)) (firstn 4 (stream j_b)) (skipn 4 (stream j_b))
    (reader_of ((stream j_a ++ firstn 12 (wire_bytes j_cut)) ++ stream j_b)) (reader_of (skipn 4 (stream j_b))) _ F
    eq_refl K ltac:(vm_compute; fall) eq_refl ltac:(vm_compute; fall) eq_refl eq_refl eq_refl Y).
Qed.

(* ---- the tools ---- *)
Definition j_fs : fsys := [(1, stream j_a); (2, stream j_b); (3, stream j_a ++ stream j_b)].
Lemma j_ready : forall x y, 3 < y -> x <= 3 -> ready (fun _ => true) j_fs (cp_apid x y) /\ ready (fun _ => true) j_fs (cp_time x y).
Proof.
  intros x y Y X. unfold ready, may_write, j_fs, cp_apid, cp_time. cbn [fa_clobber fa_output fa_input aget].
  destruct (N.eqb_spec y 1); [lia|]. destruct (N.eqb_spec y 2); [lia|]. destruct (N.eqb_spec y 3); [lia|].
  repeat split; try lia; right; reflexivity.
Qed.
Lemma j_ra : forall x y, 3 < y -> x <= 3 -> ready (fun _ => true) j_fs (cp_apid x y). Proof. intros. apply j_ready; assumption. Qed.
Lemma j_rt : forall x y, 3 < y -> x <= 3 -> ready (fun _ => true) j_fs (cp_time x y). Proof. intros. apply j_ready; assumption. Qed.
Example C104_filter_apids_at : exists outa outb fsa fsb fsc,
  filter_command (fun _ => true) j_fs (cp_apid 1 4) = Val (Success, fsa) /\ only_written j_fs 4 outa fsa /\
  filter_command (fun _ => true) j_fs (cp_apid 2 5) = Val (Success, fsb) /\ only_written j_fs 5 outb fsb /\
  filter_command (fun _ => true) j_fs (cp_apid 3 6) = Val (Success, fsc) /\ only_written j_fs 6 (outa ++ outb) fsc.
Proof.
  destruct cp_numbers as (A & B & C).
  refine (C104_filter_apids (fun _ => true) j_fs (cp_apid 1 4) (cp_apid 2 5) (cp_apid 3 6) j_a (stream j_b) j_b [7] []
    (j_ra 1 4 _ _) (j_ra 2 5 _ _) (j_ra 3 6 _ _) (proj1 j_filed) j_file eq_refl eq_refl eq_refl (conj A B) (conj A B) (conj A B) C _ _ _);
    first [lia | split; reflexivity].
Qed.
Definition j_gs : list pgroup := fst (run giter_next 9%nat (giter_new (packets_at 0 j_a))).
Lemma j_grouping : grouping (packets_at 0 j_a) j_gs.
Proof. apply groups_exact. apply run_yields with (fuel := 9%nat). vm_compute. reflexivity. Qed.
(* the last group of j_a is a standalone packet *)
Lemma j_apart : apart j_gs (packets_at 0 j_b).
Proof.
  intros init g q rest E _. right. assert (L : last j_gs g = g) by (rewrite E; apply last_last).
  vm_compute in L. subst g. eexists. split; reflexivity.
Qed.
Example C104_filter_times_at : exists outa outb fsa fsb fsc,
  filter_command (fun _ => true) j_fs (cp_time 1 4) = Val (Success, fsa) /\ only_written j_fs 4 outa fsa /\
  filter_command (fun _ => true) j_fs (cp_time 2 5) = Val (Success, fsb) /\ only_written j_fs 5 outb fsb /\
  filter_command (fun _ => true) j_fs (cp_time 3 6) = Val (Success, fsc) /\ only_written j_fs 6 (outa ++ outb) fsc.
Proof.
  destruct cp_numbers as (A & B & C).
  refine (C104_filter_times (fun _ => true) j_fs (cp_time 1 4) (cp_time 2 5) (cp_time 3 6) j_a (stream j_b) j_b j_gs [] []
    (j_rt 1 4 _ _) (j_rt 2 5 _ _) (j_rt 3 6 _ _) (proj1 j_filed) j_file eq_refl eq_refl eq_refl (conj B B) (conj B B) (conj B B) _ eq_refl eq_refl eq_refl eq_refl j_grouping j_apart);
    first [lia | right; discriminate].
Qed.
(* day 22000 is before the time, day 22001 is not: apart, the second recording is written, joined, nothing *)
Definition j_1 : list wire_packet := [mg_wire 7 1 0 22000 [1]; mg_wire 7 2 1 22000 []].
Definition j_2 : list wire_packet := [mg_wire 7 1 5 22001 [2]; mg_wire 7 2 6 22001 []].
Definition j_fs2 : fsys := [(1, stream j_1); (2, stream j_2); (3, stream j_1 ++ stream j_2)].
Lemma j_rt2 : forall x y, 3 < y -> x <= 3 -> ready (fun _ => true) j_fs2 (cp_time x y).
Proof.
  intros x y Y X. unfold ready, may_write, j_fs2, cp_time. cbn [fa_clobber fa_output fa_input aget].
  destruct (N.eqb_spec y 1); [lia|]. destruct (N.eqb_spec y 2); [lia|]. destruct (N.eqb_spec y 3); [lia|].
  repeat split; try lia; right; reflexivity.
Qed.
Example C104_group_across_at : exists outa outb outc fsa fsb fsc,
  filter_command (fun _ => true) j_fs2 (cp_time 1 4) = Val (Success, fsa) /\ only_written j_fs2 4 outa fsa /\
  filter_command (fun _ => true) j_fs2 (cp_time 2 5) = Val (Success, fsb) /\ only_written j_fs2 5 outb fsb /\
  filter_command (fun _ => true) j_fs2 (cp_time 3 6) = Val (Success, fsc) /\ only_written j_fs2 6 outc fsc /\
  outa = [] /\ outb = stream j_2 /\ outc = [].
Proof.
  destruct cp_numbers as (A & B & C).
  assert (F1 : filed [mg_wire 7 1 0 22000 [1]; mg_wire 7 2 1 22000 []]) by filed_ok.
  assert (F2 : filed [mg_wire 7 1 5 22001 [2]; mg_wire 7 2 6 22001 []]) by filed_ok.
  assert (AC : accepted [] [] 7) by (split; [left; intros v []|intros []]).
  assert (TI : timed (cp_time 1 4)) by (right; discriminate).
  assert (AL : Forall (fun w => apid (w_header w) = 7) ([mg_wire 7 1 0 22000 [1]; mg_wire 7 2 1 22000 []] ++ [mg_wire 7 1 5 22001 [2]; mg_wire 7 2 6 22001 []])) by repeat constructor.
  destruct (C104_group_across_refuted (fun _ => true) j_fs2 (cp_time 1 4) (cp_time 2 5) (cp_time 3 6) (mg_wire 7 1 0 22000 [1]) [mg_wire 7 2 1 22000 []] (mg_wire 7 1 5 22001 [2]) [mg_wire 7 2 6 22001 []] 7 [] []
    (j_rt2 1 4 ltac:(lia) ltac:(lia)) (j_rt2 2 5 ltac:(lia) ltac:(lia)) (j_rt2 3 6 ltac:(lia) ltac:(lia)) F1 F2 eq_refl eq_refl eq_refl (conj B B) (conj B B) (conj B B) AC TI eq_refl eq_refl eq_refl eq_refl AL eq_refl eq_refl)
    as (oa & ob & oc & fa & fb & fc & E1 & O1 & E2 & O2 & E3 & O3 & _ & K).
  - exists oa, ob, oc, fa, fb, fc. repeat (split; [assumption|]). apply K.
    + intros (f & r & t & E & _ & T & _ & X). injection E as <- _. vm_compute in T. injection T as <-. vm_compute in X. apply X. reflexivity.
    + do 3 eexists. split; [reflexivity|]. split; [left; reflexivity|]. split; [vm_compute; reflexivity|]. split; vm_compute; [reflexivity|discriminate].
Qed.
Definition j_fs3 (p : N) : option (list N) := if p =? 5 then Some (stream (st_ws 0) ++ stream (st_ws 1)) else st_fs p.
Lemma j_readable : readable j_fs3 (on_paths st_m [0; 1]) st_ws.
Proof. intros p I. destruct (st_readable [0; 1] p I) as (bs & E & H). exists bs. split; [|exact H]. destruct I as [<-|[<-|[]]]; exact E. Qed.
Definition j_gs0 : list pgroup := fst (run giter_next 9%nat (giter_new (packets_at 0 (st_ws 0)))).
Lemma j_grouping0 : grouping (packets_at 0 (st_ws 0)) j_gs0.
Proof. apply groups_exact. apply run_yields with (fuel := 9%nat). vm_compute. reflexivity. Qed.
Lemma j_apart0 : apart j_gs0 (packets_at 0 (st_ws 1)).
Proof.
  intros init g q rest E _. right. assert (L : last j_gs0 g = g) by (rewrite E; apply last_last).
  vm_compute in L. subst g. eexists. split; reflexivity.
Qed.
Example C104_merge_at : merge reversed j_fs3 (on_paths st_m [5]) = merge in_order j_fs3 (on_paths st_m [0; 1]).
Proof.
  exact (C104_merge in_order reversed j_fs3 st_m 0 1 5 [] st_ws (stream (st_ws 1)) j_gs0 in_order_ok reversed_ok j_readable cds_place_free (st_no_ties [0; 1])
    eq_refl eq_refl eq_refl (fun X => X) j_grouping0 j_apart0).
Qed.
Example C104_info_at : exists alla rowsa allb rowsb allc rowsc,
    info_command true j_fs 1 true = Val (Some (alla, rowsa)) /\ info_command true j_fs 2 true = Val (Some (allb, rowsb)) /\ info_command true j_fs 3 true = Val (Some (allc, rowsc)) /\
    adds_up alla allb allc /\ (forall x, adds_up (row_at x rowsa) (row_at x rowsb) (row_at x rowsc)) /\
    (forall x, In x (map fst rowsc) <-> In x (map fst rowsa) \/ In x (map fst rowsb)) /\
    (forall x, i_missing (row_at x rowsc) = i_missing (row_at x rowsa) + i_missing (row_at x rowsb) + seam x j_a j_b)%N /\
    i_missing allc = missing_sum rowsc.
Proof. exact (C104_info true j_fs 1 2 3 j_a (stream j_b) j_b true (proj1 j_filed) j_file eq_refl eq_refl eq_refl). Qed.
Example C104_seam_at : seam 7 j_a j_b = 3 /\ seam 8 j_a j_b = 0. Proof. split; vm_compute; reflexivity. Qed.

(* ---- blocks: the second stream is shifted by 5 bits ---- *)
Definition j_ba : list N := [9] ++ ASM ++ [1; 2] ++ ASM ++ [3; 4].
Definition j_bb : list N := [0x03; 0x59; 0xff; 0x83; 0xa0; 0x20; 0x5f].
Example C104_blocks_at : yields biter_next (synchronize (reader_of (j_ba ++ j_bb)) ASM 2)
  [Ok (mkBlock 0 (mkLoc 6 0) [1; 2]); Ok (mkBlock 6 (mkLoc 12 0) [3; 4]); Ok (mkBlock 6 (mkLoc 18 5) [1; 2])].
Proof.
  refine (C104_blocks ASM 2 (reader_of j_ba) (reader_of j_bb) (reader_of (j_ba ++ j_bb)) j_ba j_bb [Ok (mkBlock 0 (mkLoc 6 0) [1; 2])] (mkBlock 6 (mkLoc 12 0) [3; 4]) 88
    [Ok (mkBlock 0 (mkLoc 5 5) [1; 2])] _ _ _ _ _ _ _ _ _ _ _).
  - vm_compute; fall.
  - discriminate.
  - vm_compute; fall.
  - vm_compute; fall.
  - apply delivers_file; discriminate.
  - apply delivers_file; discriminate.
  - apply delivers_file; discriminate.
  - apply (run_yields _ _ _ 10). vm_compute. reflexivity.
  - apply (loc_at_designates 88).
  - reflexivity.
  - apply (run_yields _ _ _ 10). vm_compute. reflexivity.
Qed.

(* ---- frames ---- *)
Definition j_cadu (vcid counter : N) : block := mkBlock 0 (mkLoc 1 0) [0x40; vcid; 0; 0; counter; 0; 7; 7].
Definition j_fa : list frame := fst (run (fdec_next true) 9%nat (frame_decoder [j_cadu 1 5; j_cadu 2 9; j_cadu 63 4])).
Definition j_fb : list frame := fst (run (fdec_next true) 9%nat (frame_decoder [j_cadu 1 8; j_cadu 3 1; j_cadu 63 9; j_cadu 1 10])).
Definition j_fj : list frame := fst (run (fdec_next true) 9%nat (frame_decoder ([j_cadu 1 5; j_cadu 2 9; j_cadu 63 4] ++ [j_cadu 1 8; j_cadu 3 1; j_cadu 63 9; j_cadu 1 10]))).
Example C104_frames_at : map f_missing j_fb = [0; 0; 0; 1] /\ map f_missing j_fj = [0; 0; 0; 2; 0; 0; 1] /\
  exists fb', j_fj = j_fa ++ fb' /\ same_frames j_fb fb'.
Proof.
  split; [vm_compute; reflexivity|]. split; [vm_compute; reflexivity|].
  destruct (C104_frames true [j_cadu 1 5; j_cadu 2 9; j_cadu 63 4] [j_cadu 1 8; j_cadu 3 1; j_cadu 63 9; j_cadu 1 10] j_fa j_fb j_fj) as (fb' & E & SF & _).
  - repeat (constructor; [vm_compute; discriminate|]). constructor.
  - apply run_yields with (fuel := 9%nat). vm_compute. reflexivity.
  - apply run_yields with (fuel := 9%nat). vm_compute. reflexivity.
  - apply run_yields with (fuel := 9%nat). vm_compute. reflexivity.
  - exists fb'. split; assumption.
Qed.

(* ---- packets of frames ---- *)
(* the first recording ends in the third packet of ex_ws; the second has all three, and its first frame comes after a loss of 5 *)
Definition j_pb : list frame :=
  [ex_frame 3 5 0 (firstn 10 (stream ex_ws)); ex_frame 3 0 2047 (firstn 10 (skipn 10 (stream ex_ws))); ex_frame 3 0 0 (skipn 20 (stream ex_ws))].
Lemma j_frames_ok : frames_ok 1 2 ex_fs /\ frames_ok 1 2 (firstn 2 ex_fs).
Proof.
  assert (A : frames_ok 1 2 ex_fs).
  { repeat (constructor; [split; [ex_bytes|unfold long_enough; cbn; lia]|]). constructor. }
  split; [exact A|]. unfold frames_ok in *. rewrite <- (firstn_skipn 2 ex_fs), Forall_app in A. apply A.
Qed.
Example C104_frame_packets_at : yields (fpiter_next 1 2) (packet_decoder (firstn 2 ex_fs ++ j_pb))
  (fst (run (fpiter_next 1 2) 9%nat (packet_decoder (firstn 2 ex_fs))) ++ fst (run (fpiter_next 1 2) 9%nat (packet_decoder ex_fs))) /\
  length (fst (run (fpiter_next 1 2) 9%nat (packet_decoder (firstn 2 ex_fs)))) = 2%nat /\ length (fst (run (fpiter_next 1 2) 9%nat (packet_decoder ex_fs))) = 3%nat.
Proof.
  split; [|split; vm_compute; reflexivity].
  refine (C104_frame_packets 1 2 (firstn 2 ex_fs) ex_fs j_pb _ _ (proj2 j_frames_ok) (proj1 j_frames_ok) _ _ _ _).
  - split.
    + repeat constructor.
    + intros k f g EF EG I. destruct k as [|[|[|k]]]; cbn in EF, EG; [destruct I| | |destruct k; discriminate]; congruence.
  - intros before g after E _ NI. destruct before as [|b0 before].
    + injection E as <- _. left. discriminate.
    + exfalso. injection E as <- E. apply NI. left.
      destruct before as [|b1 before]; [injection E as <- _; reflexivity|]. injection E as <- E.
      destruct before as [|b2 before]; [injection E as <- _; reflexivity|]. injection E as <- E. destruct before; discriminate.
  - apply run_yields with (fuel := 9%nat). vm_compute. reflexivity.
  - apply run_yields with (fuel := 9%nat). vm_compute. reflexivity.
Qed.
(* the first frame ends in the second packet of ex_ws; the other frame is of another recording *)
Definition j_f : frame := ex_frame 3 0 0 (firstn 16 (stream ex_ws)).
Definition j_g : frame := ex_frame 3 0 0 [77; 78; 79; 80; 5; 6].
Example C104_packet_across_at : exists qs,
  yields (fpiter_next 1 2) (packet_decoder [j_f]) (map pk (firstn 1 ex_ws)) /\
  yields (fpiter_next 1 2) (packet_decoder [j_f; j_g]) (map pk (firstn 1 ex_ws) ++
    mkPacket (w_header (nth 1 ex_ws (mg_wire 0 0 0 0 []))) (firstn 7 (wire_bytes (nth 1 ex_ws (mg_wire 0 0 0 0 []))) ++ [77; 78; 79; 80]) 0 :: qs).
Proof.
  assert (NB : forall v m p l, ~ bad_frame (ex_frame v m p l)) by (intros v m p l [X|X]; discriminate).
  refine (C104_packet_across_refuted 1 2 (firstn 1 ex_ws) (nth 1 ex_ws (mg_wire 0 0 0 0 [])) 7 j_f j_g [] [77; 78; 79; 80] [5; 6] _ _ _ _ (NB _ _ _ _) _ _ (NB _ _ _ _) _ _ _ _ _).
  - repeat constructor.
  - repeat constructor.
  - repeat (constructor; [split; [ex_bytes|unfold long_enough; cbn; lia]|]). constructor.
  - repeat constructor.
  - reflexivity.
  - reflexivity.
  - reflexivity.
  - reflexivity.
  - lia.
  - discriminate.
  - reflexivity.
Qed.
