(* Theorems of C49 - C60 applied to concrete, non-trivial cases: every hypothesis is met. *)
From Coq Require Import Permutation Sorted Floats.SpecFloat.
From Verif Require Import Base S_Diff S_Bits M_Reader M_Packet M_Group S_Packet S_Group M_Timecode L_Base L_Packet L_Group M_Sync M_Frame M_ReedSolomon M_RsPipeline M_Pipeline
  M_Merge S_Merge S_MergeLive S_ReedSolomon L_ReedSolomon L_Merge M_Cli S_Cli M_Main S_Main S_Framing P_RsPipeline P_CliFilter P_CliDiff P_CliInfo P_CliFrame P_Pipeline P_Main P_Main2.
Open Scope N_scope.

Ltac ok := first [ reflexivity | discriminate | lia | (cbn; lia) | solve [repeat constructor; cbn; (reflexivity || lia || discriminate)] ].

Lemma holds : forall ws, Forall wire_ok ws -> Forall (fun w => N.of_nat (length (wire_bytes w)) <= 65536) ws -> file_holds (concat (map wire_bytes ws)) ws.
Proof. intros ws A B. split; [exact A|]. split; [exact B|]. exists []. rewrite app_nil_r. split; [reflexivity|]. split; [constructor|]. split; [apply incomplete_nil|cbn; lia]. Qed.
Ltac file := apply holds; repeat constructor; vm_compute; discriminate.
Lemma dec_kept : forall A (P : A -> Prop) (f : A -> bool) l, (forall x, In x l -> if f x then P x else ~ P x) -> kept P l (filter f l).
Proof.
  induction l as [|x l IH]; intro H; [constructor|]. cbn [filter]. assert (X := H x (or_introl eq_refl)).
  destruct (f x); [apply kept_yes|apply kept_no]; try exact X; apply IH; intros; apply H; right; assumption.
Qed.

(* ---- C49 ---- *)
Definition two : list wire_packet := [fl_wire 7 1; fl_wire 8 2].
Definition two_bytes : list N := concat (map wire_bytes two).
Lemma two_holds : file_holds two_bytes two. Proof. file. Qed.
Lemma two_groups : grouping (packets_at 0 two) (map (fun p => mkGroup (apid_of p) [p]) (packets_at 0 two)).
Proof. cbn. apply grouping_standalone; [reflexivity|]. apply grouping_standalone; [reflexivity|]. apply grouping_nil. Qed.
Example C49_filter_apids_at := C49_filter_apids two_bytes two [8; 9] [] two_holds ltac:(left; discriminate).
Example C49_filter_times_at := C49_filter_times two_bytes two _ [] [] None (Some 100%Z) two_holds two_groups ltac:(right; discriminate).

(* ---- C50 ---- *)
Example C50_parse_number_ranges_at := proj1 (C50_parse_number_ranges [[49; 48; 45; 49; 50]; [55]] [10; 11; 12; 7]) eq_refl.
Example C50_range_members_at := C50_range_members [49; 48] [49; 50] [10; 11; 12] 11 (proj1 (C50_parse_one [49; 48; 45; 49; 50] [10; 11; 12]) eq_refl) ltac:(ok) ltac:(ok).

(* ---- C51 ---- *)
Definition lft : list wire_packet := [fl_wire 7 1; fl_wire 8 1; fl_wire 9 1].
Definition rgt : list wire_packet := [fl_wire 9 1; fl_wire 7 1].
Lemma lft_holds : file_holds (concat (map wire_bytes lft)) lft. Proof. file. Qed.
Lemma rgt_holds : file_holds (concat (map wire_bytes rgt)) rgt. Proof. file. Qed.
Example C51_exact_count_at := C51_exact_count sum8 _ _ lft rgt (wkey sum8 (fl_wire 9 1)) lft_holds rgt_holds ltac:(left; right; right; left; reflexivity)
  ltac:(intros x [[<-|[<-|[<-|[]]]]|[<-|[<-|[]]]]; first [right; reflexivity | left; left; reflexivity]).
Lemma rev_holds : file_holds (concat (map wire_bytes (rev lft))) (rev lft). Proof. file. Qed.
Example C51_equal_files_at := C51_equal_files sum8 _ _ lft (rev lft) lft_holds rev_holds ltac:(apply Permutation_map, Permutation_rev) ltac:(discriminate).
Lemma one_holds : file_holds (concat (map wire_bytes [fl_wire 5 1])) [fl_wire 5 1]. Proof. file. Qed.
Example C51_detects_at := C51_detects sum8 _ _ lft [fl_wire 5 1] lft_holds one_holds ltac:(vm_compute; lia).

(* ---- C52 ---- *)
Example C52_info_at := C52_info true (Some cds_time) [Ok (in_pkt 9 16383 22000 true); Err (Io Interrupted); Ok (in_pkt 7 1 21999 true); Ok (in_pkt 9 2 23000 false)] ltac:(ok).

(* ---- C53 ---- *)
Definition frs : list frame :=
  [fr 3 0 None [1;2;3]; fr 63 0 None [0;0]; fr 9 0 (Some IOk) [7;7]; fr 1 4 (Some ICorrected) [5;6]; fr 3 1 (Some IUncorrectable) [8;9;10]; fr 1 0 (Some IFailed) []].
Definition frs_sel : list frame := filter (fun f => negb (v_vcid (f_header f) =? 63) && negb (v_vcid (f_header f) =? 9))%bool frs.
Lemma frs_kept : kept (S_Cli.chosen false [] [9]) frs frs_sel.
Proof.
  apply dec_kept. intros x I. cbn in I.
  repeat (destruct I as [<-|I]; [cbn; first [split; [discriminate|split; [left; reflexivity|intros [A|[]]; discriminate]] | intros [A [_ B]]; first [exact (A eq_refl eq_refl) | apply B; left; reflexivity]]|]).
  destruct I.
Qed.
Example C53_report_at := C53_report 2 false [] [9] true frs frs_sel frs_kept
  ltac:(intros _; repeat (apply Forall_cons; [solve [intros U; first [cbn; lia | destruct U as [U|[U|U]]; discriminate]]|]); apply Forall_nil).
Example C53_totals_at := C53_totals 2 false [] [9] true frs _ _ _ C53_ex.
Example C53_panics_iff_at := proj1 (C53_panics_iff 2 false [] [] true [fr 3 0 None [1]]) C53_ex_panic.

(* ---- C55 ---- *)
Example C55_failing_reader_hangs_refuted_at := C55_failing_reader_hangs_refuted ASM 3 (mkReader [EvData [26; 207; 252; 29; 1; 2; 3; 26]] (Failing 5)) 5 ltac:(discriminate) eq_refl
  ltac:(cbn; repeat (apply Forall_cons; [split; discriminate|]); apply Forall_nil).
Example C55_returns_on_finite_readers_at := C55_returns_on_finite_readers ASM 3 (mkReader [EvData [26; 207; 252; 29; 1; 2; 3; 26]] AtEof) ltac:(discriminate) eq_refl.

(* ---- C56, C57 ---- *)
Lemma stands : forall l vs, parse_number_ranges l = Some vs -> stands_for l vs.
Proof. intros l vs H. exact (proj1 (C50_parse_number_ranges l vs) H). Qed.
Definition any (_ : N) : bool := true.
Lemma mx_holds : file_holds (wire_bytes (fl_wire 7 1) ++ wire_bytes (fl_wire 8 2)) two.
Proof. exact two_holds. Qed.
Definition f8 (b : option Z) : filter_args := mkFilterArgs [[56]] [] b None false 3 1.
Example C56_filter_command_apids_at := C56_filter_command_apids any mx_fs (f8 None) _ two [8] [] ltac:(right; reflexivity) eq_refl ltac:(discriminate) eq_refl mx_holds
  (stands [[56]] [8] eq_refl) (stands [] [] eq_refl) ltac:(exists 8; split; [left; reflexivity|lia]) eq_refl eq_refl.
Example C56_filter_command_times_at := C56_filter_command_times any mx_fs (f8 (Some 5%Z)) _ two _ [8] [] ltac:(right; reflexivity) eq_refl ltac:(discriminate) eq_refl mx_holds
  two_groups (stands [[56]] [8] eq_refl) (stands [] [] eq_refl) ltac:(left; discriminate).
Example C56_big_include_selects_all_refuted_at := C56_big_include_selects_all_refuted any mx_fs (mkFilterArgs [[54; 53; 53; 51; 54]] [[57]] None None true 2 1) [65536]
  (stands [[54; 53; 53; 51; 54]] [65536] eq_refl) ltac:(intros v [<-|[]]; lia).
Definition mg1 (cl : bool) (out : N) (ins : list N) : merge_args := mkMergeArgs (Some [8; 7]) None None None [] cl out ins.
Example C57_no_clobber_at := C57_no_clobber in_order_h any mx_fs (mg1 false 2 [1]) (mkFilterArgs [[56]] [] None None false 2 1) [1; 2; 3].
Example C57_no_clobber_at1 := proj1 C57_no_clobber_at eq_refl eq_refl.
Example C57_no_clobber_at2 := proj2 C57_no_clobber_at eq_refl eq_refl.
Example C57_only_the_output_at := proj2 (C57_only_the_output in_order_h any mx_fs (mg1 false 2 [1]) (f8 None) Success (mx_fs ++ [(3, wire_bytes (fl_wire 8 2))]) 1) (proj1 C56_ex) ltac:(discriminate).
Lemma hok : hash_ok in_order_h. Proof. split; intro; apply Permutation_refl. Qed.
Example C57_merge_command_at := C57_merge_command in_order_h any mx_fs (mg1 true 2 [1; 2]) [8; 7] (fun p => if p =? 1 then two else []) hok ltac:(left; reflexivity) eq_refl
  ltac:(discriminate) eq_refl
  ltac:(intros p [<-|[<-|[]]]; [right; split; [discriminate|]; eexists; split; [reflexivity|exact mx_holds] | left; split; reflexivity]).
Example C57_merge_failure_loses_output_refuted_at := C57_merge_failure_loses_output_refuted in_order_h any mx_fs (mg1 true 2 [1; 9]) [8; 7] ltac:(left; reflexivity) eq_refl eq_refl
  ltac:(right; exists 9; split; [right; left; reflexivity|split; [discriminate|reflexivity]]).
Example C57_filter_failure_loses_output_refuted_at := C57_filter_failure_loses_output_refuted any mx_fs (mkFilterArgs [[120]] [] None None true 2 1) _ ltac:(left; reflexivity) eq_refl eq_refl
  ltac:(left; intros [vs H]; apply C50_parse_number_ranges in H; discriminate).
Example C57_filter_onto_itself_refuted_at := C57_filter_onto_itself_refuted any mx_fs (mkFilterArgs [[56]] [] None None true 1 1) _ [8] [] eq_refl eq_refl eq_refl eq_refl
  (stands [[56]] [8] eq_refl) (stands [] [] eq_refl) ltac:(left; exists 8; split; [left; reflexivity|lia]).
Example C57_merge_onto_input_refuted_at := C57_merge_onto_input_refuted in_order_h any mx_fs (mg1 true 1 [1]) [8; 7] _ hok eq_refl eq_refl eq_refl eq_refl eq_refl.

(* ---- C58 ---- *)
Example C58_unknown_order_name_at := C58_unknown_order_name in_order_h any mx_fs (mkMergeArgs (Some [1]) (Some [106; 112]) None None [] true 2 [1]) [106; 112] eq_refl ltac:(discriminate).
Definition viirs : list wire_packet := [fl_wire 826 2; fl_wire 821 2; fl_wire 900 2].
Definition viirs_fs : fsys := [(1, concat (map wire_bytes viirs))].
Lemma viirs_holds : file_holds (concat (map wire_bytes viirs)) viirs. Proof. file. Qed.
Example C58_jpss_viirs_at := C58_jpss_viirs in_order_h any viirs_fs (mkMergeArgs (Some [1]) (Some JPSS_VIIRS) None None [] false 3 [1]) (fun _ => viirs) hok eq_refl
  ltac:(right; reflexivity) eq_refl ltac:(discriminate) ltac:(intros p [<-|[]]; split; [discriminate|]; eexists; split; [reflexivity|exact viirs_holds]).
Example C58_jpss_viirs_at_value : merge_command in_order_h any viirs_fs (mkMergeArgs (Some [1]) (Some JPSS_VIIRS) None None [] false 3 [1]) =
  Val (Success, viirs_fs ++ [(3, wire_bytes (fl_wire 900 2) ++ wire_bytes (fl_wire 821 2) ++ wire_bytes (fl_wire 826 2))]).
Proof. vm_compute. reflexivity. Qed.
Example C58_whole_seconds_at := C58_whole_seconds 3944678400 ltac:(reflexivity).

(* ---- C59 ---- *)
Definition cfg256 : config := mkConfig (Some [1; 2]) 8%nat false (Some (256, 3)%nat).
Example C59_options_at : exists len p i e, framing_setup (fx_args (Some cfg256) (Some 4%nat)) = Some (len, p, i, e) /\ len = 8%nat /\ pl_block_length p = 8%nat.
Proof.
  do 4 eexists. split; [reflexivity|]. assert (X := C59_options (fx_args (Some cfg256) (Some 4%nat)) _ _ _ _ eq_refl). split; reflexivity.
Qed.
Example C59_rejected_at := proj2 (C59_rejected true ok_codec 2 any fx_fs (fx_args (Some (mkConfig None 0%nat true None)) None)) eq_refl.
Definition fx_run k nt : exists all rows,
  framing_command true k nt (fun _ => true) fx_fs (fx_args (Some (mkConfig None 8%nat false None)) None) Success
    [(1, ASM ++ fx_frame 3 ++ ASM ++ fx_frame 63); (2, fx_frame 3)] (Some (all, rows)) /\ fi_total_frames all = 1.
Proof.
  do 2 eexists. split.
  - change [(1, ASM ++ fx_frame 3 ++ ASM ++ fx_frame 63); (2, fx_frame 3)] with (aset 2 (fx_frame 3) fx_fs).
    eapply framing_output; try reflexivity; [discriminate| |].
    + eapply start_intro; [| reflexivity | |reflexivity].
      * eapply run_yields with (fuel := 10%nat). vm_compute. reflexivity.
      * left. eapply run_yields with (fuel := 10%nat). vm_compute. reflexivity.
    + vm_compute. reflexivity.
  - reflexivity.
Qed.
Example C59_asm_ignored_refuted_at : exists all rows x fs', fi_total_frames all = 1 /\
  framing_command true ok_codec 2 (fun _ => true) fx_fs (fx_args (Some (mkConfig (Some [1; 2; 3; 4]) 8%nat false None)) None) x fs' (Some (all, rows)).
Proof.
  destruct (fx_run ok_codec 2) as (all & rows & R & T). do 4 eexists. split; [exact T|].
  exact (C59_asm_ignored_refuted true ok_codec 2 (fun _ => true) fx_fs (fx_args (Some (mkConfig None 8%nat false None)) None) (mkConfig None 8%nat false None) (Some [1; 2; 3; 4]) _ _ _ eq_refl R).
Qed.
Lemma fx_frames : exists frames, pipeline_start true ok_codec 2 (frame_pipeline 8 false None false false 0 None 50) (reader_of (ASM ++ fx_frame 3 ++ ASM ++ fx_frame 63)) frames /\
  map f_data frames = [fx_frame 3; fx_frame 63] /\ map (fun f => v_vcid (f_header f)) frames = [3; 63] /\ map f_integrity frames = [None; None].
Proof.
  eexists. split; [|split; [|split]].
  - eapply start_intro; [| reflexivity | |reflexivity].
    + eapply run_yields with (fuel := 10%nat). vm_compute. reflexivity.
    + left. eapply run_yields with (fuel := 10%nat). vm_compute. reflexivity.
  - reflexivity.
  - reflexivity.
  - reflexivity.
Qed.
Lemma ok_codec_ok : codec_ok ok_codec.
Proof. intros w L _. exists w. cbn. split; [reflexivity|lia]. Qed.
Example C53_pipeline_at : exists frames, map (fun f => v_vcid (f_header f)) frames = [3; 63] /\ Forall (fun f => usable f -> length (f_data f) = 8%nat) frames.
Proof.
  destruct fx_frames as (frames & P & D & V & I). exists frames. split; [exact V|].
  destruct (C53_pipeline true ok_codec 2 _ 8 false None false false 0 None 50 frames ok_codec_ok Logic.I P) as [A _].
  eapply Forall_impl; [|exact A]. cbn beta. intros f H U. exact (proj2 (H U) (or_introl eq_refl)).
Qed.
Example C59_framing_command_at : exists frames sel good all rows fs', length frames = 2%nat /\ length sel = 1%nat /\
  kept (looked_at (fx_args None None) [3] []) frames sel /\ kept usable sel good /\
  framing_command true ok_codec 2 any fx_fs (fx_args None None) Success fs' (Some (all, rows)) /\ only_written fx_fs 2 (fx_frame 3) fs'.
Proof.
  destruct fx_frames as (frames & P & D & V & I).
  destruct frames as [|f1 [|f2 [|]]]; try discriminate. cbn [map] in D, V, I. injection D as D1 D2. injection V as V1 V2. injection I as I1 I2.
  assert (K1 : kept (looked_at (fx_args None None) [3] []) [f1; f2] [f1]).
  { apply kept_yes; [|apply kept_no; [|apply kept_nil]].
    - split; [rewrite V1; discriminate|]. split; [right; rewrite V1; left; reflexivity|intros []].
    - intros [A _]. exact (A eq_refl V2). }
  assert (K2 : kept usable [f1] [f1]) by (apply kept_yes; [left; exact I1|apply kept_nil]).
  destruct (C59_framing_command true ok_codec 2 any fx_fs (fx_args None None) 8 (frame_pipeline 8 false None false false 0 None 50) [3] [] [3] [] _ [f1; f2] [f1] [f1] 2 ok_codec_ok eq_refl Logic.I
    (stands [[51]] [3] eq_refl) (stands [] [] eq_refl) eq_refl P eq_refl ltac:(discriminate) eq_refl K1 K2) as (all & rows & fs' & A & B & _).
  exists [f1; f2], [f1], [f1], all, rows, fs'. split; [reflexivity|]. split; [reflexivity|]. split; [exact K1|]. split; [exact K2|]. split; [exact A|].
  cbn [map concat] in B. rewrite D1 in B. exact B.
Qed.
(* interleave 256 in the config file and a recording of fill frames only: the command ends *)
Definition fill_fs : fsys := [(1, ASM ++ fx_frame 63)].
Lemma run256 : exists fs' r, framing_command true ok_codec 2 any fill_fs (fx_args (Some cfg256) None) Success fs' (Some r).
Proof.
  set (p := frame_pipeline 8 false (Some 0%nat) false false 3 None 50).
  assert (X : exists frames, pipeline_start true ok_codec 2 p (reader_of (ASM ++ fx_frame 63)) frames /\ exists y, frame_cmd 8 false [3] [] true frames = Val y).
  { assert (X : exists items frames f', yields biter_next (synchronize (reader_of (ASM ++ fx_frame 63)) ASM 8) items /\
      yields (fdec_next true) (frame_decoder (oks items)) frames /\ map (rs_job ok_codec (rs_of_opts (mkRsOpts 0 3 0 50 false true))) frames = [Val f'] /\
      exists y, frame_cmd 8 false [3] [] true [f'] = Val y).
    { do 3 eexists. split; [eapply run_yields with (fuel := 10%nat); vm_compute; reflexivity|]. split; [eapply run_yields with (fuel := 10%nat); vm_compute; reflexivity|].
      split; [vm_compute; reflexivity|]. eexists. vm_compute. reflexivity. }
    destruct X as (items & frames & f' & Y1 & Y2 & J & OUT).
    destruct (C46_can_finish _ (rs_job ok_codec (rs_of_opts (mkRsOpts 0 3 0 50 false true))) 50 2 frames (init frames)) as (ls & s' & E1 & _ & E2 & E3).
    - lia.
    - intros f I X. apply (in_map (rs_job ok_codec (rs_of_opts (mkRsOpts 0 3 0 50 false true)))) in I. rewrite J, X in I. destruct I as [I|[]]. discriminate.
    - exists []. constructor.
    - discriminate.
    - exists (st_recv s'). rewrite J in E3. destruct (st_recv s') as [|g [|]] eqn:R; try discriminate. injection E3 as ->. split; [|exact OUT]. rewrite <- R.
      eapply start_intro; [exact Y1|reflexivity|first [right; exact Y2 | left; exact Y2 | exact Y2]|]. exists s'. split; [exists ls; exact E1|auto]. }
  destruct X as (frames & P & [[all rows] out] & O).
  exists (aset 2 out fill_fs), (all, rows). eapply framing_output; try reflexivity; [discriminate|exact P|exact O].
Qed.
Example C59_interleave_256_refuted_at : exists frames len p, pipeline_start true ok_codec 2 p (reader_of (ASM ++ fx_frame 63)) frames /\
  framing_setup (fx_args (Some cfg256) None) = Some (len, p, [3], []) /\ Forall (fun f => v_vcid (f_header f) = 63) frames.
Proof.
  destruct run256 as (fs' & r & C).
  destruct (C59_interleave_256_refuted true ok_codec 2 any fill_fs (fx_args (Some cfg256) None) cfg256 1 3 _ _ r (ASM ++ fx_frame 63) eq_refl eq_refl eq_refl C) as (len & p & i & e & frames & S1 & P & F).
  injection S1 as <- <- <- <-. exists frames. do 2 eexists. split; [exact P|]. split; [reflexivity|exact F].
Qed.

(* ---- C60 ---- *)
Example C60_python_files_at := C60_python_files mx_fs 1 _ two _ eq_refl mx_holds two_groups.
Example C60_python_missing_file_at := C60_python_missing_file mx_fs 5 eq_refl.
