(* Theorems of C78 and C79 applied to concrete, non-trivial cases: every hypothesis is met. *)
From Coq Require Import Permutation.
From Verif Require Import Base S_Bits S_Packet M_Reader M_Packet M_Group S_Group M_Timecode L_Base L_Packet M_Merge S_Merge
  M_Cli S_Cli M_Main S_Main S_Write M_Live S_Live S_AnyFile P_CliFrame P_CliFilter P_CliInfo P_CliDiff P_Main P_Main2 P_AnyFile P_Live P_LiveCmd W_Cli.
Open Scope nat_scope.

(* ---- C78: a readable file and one with a packet that is too long ---- *)
Definition d78 : fsys := [(1, af_bytes); (2, two_bytes)]%N.
Lemma disk78 : disk_ok d78.
Proof.
  intros p bs H. cbn [d78 aget] in H. destruct (p =? 1)%N; [injection H as <-; repeat constructor|]. destruct (p =? 2)%N; [injection H as <-; vm_compute; repeat constructor|]. discriminate.
Qed.
Definition af_wire : wire_packet := mkWire (mkHeader 0 0 true 7 3 0 1) [1; 2]%N.
Lemma af_big : too_big af_bytes [af_wire].
Proof. split; [repeat constructor|]. split; [repeat constructor; vm_compute; discriminate|]. exists (skipn 8 af_bytes). split; [reflexivity|]. split; [repeat constructor|]. split; [cbn; lia|vm_compute; reflexivity]. Qed.
Lemma bad78 : bad_file d78 1.
Proof. exists af_bytes, [af_wire]. split; [reflexivity|exact af_big]. Qed.
Lemma good78 : ~ bad_file d78 2.
Proof. intros (bs & ws & E & B). injection E as <-. exact (proj2 (proj2 (C78_one_reading two_bytes two ws)) (conj two_holds B)). Qed.
Example C78_every_file_at := C78_every_file af_bytes ltac:(repeat constructor).
Example C78_reading_at := proj2 (C78_reading af_bytes [af_wire]) af_big.
Example C78_reading_at2 := proj1 (C78_reading two_bytes two) two_holds.
Example C78_filter_at : filter_command any d78 (mkFilterArgs [[55]] [] None None false 9 1)%N = Panic.
Proof.
  apply (C78_filter any d78 _ disk78). split; [right; reflexivity|]. split; [reflexivity|]. split; [discriminate|]. split; [exact bad78|].
  exists [7]%N, []. split; [exact (stands [[55]]%N [7]%N eq_refl)|]. split; [exact (stands [] [] eq_refl)|]. left. exists 7%N. split; [left; reflexivity|lia].
Qed.
Example C78_filter_at2 : filter_command any d78 (mkFilterArgs [[55]] [] None None false 9 2)%N <> Panic.
Proof. intro P. apply (C78_filter any d78 _ disk78) in P. destruct P as (_ & _ & _ & B & _). exact (good78 B). Qed.
Example C78_info_at := proj2 (C78_info true d78 1 true disk78) bad78.
Example C78_diff_at : diff_command sum8 d78 true 2 1 = Panic.
Proof. apply (C78_diff sum8 d78 true 2 1 disk78). right. split; [|exact bad78]. change (aget 2 d78) with (Some two_bytes). discriminate. Qed.
Example C78_merge_at : merge_command in_order_h any d78 (mg1 false 9 [2; 1]%N) = Panic.
Proof.
  apply (C78_merge in_order_h any d78 _ hok disk78). split; [right; reflexivity|]. split; [reflexivity|]. split; [exists [8; 7]%N; reflexivity|].
  split; [intros p [<-|[<-|[]]] _; discriminate|]. exists 1%N. split; [right; left; reflexivity|]. split; [discriminate|exact bad78].
Qed.
Example C78_python_at := proj2 (proj1 (C78_python d78 1 disk78)) bad78.

(* ---- C79: a packet and the beginning of one, and then the device fails for ever ---- *)
Lemma of_ex : of_bytes ex_reader. Proof. repeat constructor. Qed.
Definition ex_wire : wire_packet := mkWire (mkHeader 0 0 true 5 3 0 0) [9]%N.
Lemma ex_holds : file_holds ex_bytes [ex_wire].
Proof. split; [repeat constructor|]. split; [repeat constructor; vm_compute; discriminate|]. exists [8; 5]%N. split; [reflexivity|]. split; [repeat constructor|]. split; [left; cbn; lia|cbn; lia]. Qed.
Definition ex_ps : list packet := packets_at 0 [ex_wire].
Lemma ex_forever : reads pdec_next (pdec_new ex_reader) (map Ok ex_ps) Forever.
Proof. exact (proj2 (proj2 (C79_inputs ex_bytes [ex_wire])) ex_reader 5%N ex_holds eq_refl eq_refl). Qed.
Lemma two_ends : exists s', reads pdec_next (pdec_new (reader_of two_bytes)) (map Ok (packets_at 0 two)) (EndsIn s').
Proof. destruct (proj1 (C79_inputs two_bytes two) two_holds) as (s' & R & _). exists s'. exact R. Qed.
Lemma big_breaks : reads pdec_next (pdec_new (reader_of af_bytes)) (map Ok (packets_at 0 [af_wire])) Breaks.
Proof. exact (proj1 (proj2 (C79_inputs af_bytes [af_wire])) af_big). Qed.
Example C79_every_reader_at := C79_every_reader (pdec_new ex_reader) of_ex.
Example C79_one_way_at := C79_one_way _ _ _ _ _ ex_forever ex_forever.
Lemma alone_closed : forall p, sequence_flags (p_header p) = 3%N -> closed_groups [p] [mkGroup (apid (p_header p)) [p]].
Proof.
  intros p H. exists [mkGroup (apid (p_header p)) [p]]. split; [apply grouping_standalone; [exact H|apply grouping_nil]|]. left. split; [reflexivity|].
  intros init g E. destruct init as [|? init]; [injection E as <-|destruct init; discriminate]. exists p. split; [reflexivity|exact H].
Qed.
Lemma ex_closed : closed_groups ex_ps [mkGroup 5 ex_ps].
Proof. exact (alone_closed (hd (mkPacket (w_header ex_wire) [] 0) ex_ps) eq_refl). Qed.
Lemma af_closed : closed_groups (packets_at 0 [af_wire]) [mkGroup 7 (packets_at 0 [af_wire])].
Proof. exact (alone_closed (hd (mkPacket (w_header af_wire) [] 0) (packets_at 0 [af_wire])) eq_refl). Qed.
Example C79_group_inputs_at1 := proj1 (C79_group_inputs two_bytes two _) two_holds two_groups.
Example C79_group_inputs_at2 := proj1 (proj2 (C79_group_inputs af_bytes [af_wire] _)) af_big af_closed.
Definition C79_group_inputs_at3 := proj2 (proj2 (C79_group_inputs ex_bytes [ex_wire] _)) ex_reader 5%N ex_holds eq_refl eq_refl ex_closed.
Example C79_iterators_at := C79_iterators ex_reader _ _ _ _ ex_forever C79_group_inputs_at3.
Example C79_every_group_reader_at := C79_every_group_reader ex_reader of_ex.
Example C79_info_at1 := C79_info true (Some cds_time) ex_reader _ _ of_ex ex_forever.
Example C79_info_at2 := C79_info true None (reader_of af_bytes) _ _ ltac:(repeat constructor) big_breaks.
Lemma of_two : of_bytes (reader_of two_bytes). Proof. vm_compute. repeat constructor. Qed.
Example C79_info_at3 : exists res, summarize true None (map Ok (packets_at 0 two)) = Val res /\ eventually (info_live true None (reader_of two_bytes)) (Some (Val res)).
Proof. destruct two_ends as [s' R]. exact (C79_info true None _ _ _ of_two R). Qed.
Lemma ex_kept : kept (fun p => accepted [5]%N [] (apid (p_header p))) ex_ps ex_ps.
Proof. apply kept_yes; [|apply kept_nil]. split; [right; left; reflexivity|intros []]. Qed.
Example C79_filter_apids_at := C79_filter_apids any false ex_reader (ex_args None) _ _ ex_ps ex_ps [5]%N [] of_ex ltac:(left; reflexivity) eq_refl
  (stands [[53]]%N [5]%N eq_refl) (stands [] [] eq_refl) ltac:(exists 5%N; split; [left; reflexivity|lia]) eq_refl eq_refl ex_forever ltac:(left; reflexivity) ex_kept.
Example C79_filter_times_at := C79_filter_times any false ex_reader (ex_args (Some 7%Z)) _ _ [] [5]%N [] of_ex ltac:(left; reflexivity) eq_refl
  (stands [[53]]%N [5]%N eq_refl) (stands [] [] eq_refl) ltac:(left; discriminate) C79_group_inputs_at3
  ltac:(apply kept_no; [|apply kept_nil]; intros [(f & rest & t & E & _ & T & _) _]; injection E as <- _; vm_compute in T; discriminate).
Definition c79 (n : nat) := filter_command_live any false (Some ex_reader) (ex_args None) n.
Example C79_crash_points_at := C79_crash_points any false (Some ex_reader) (ex_args None) 1 10 Going (Exited Success) (Some [8; 5; 192; 0; 0; 0; 9]%N) (Some [8; 5; 192; 0; 0; 0; 9]%N) ltac:(lia)
  ltac:(vm_compute; reflexivity) ltac:(vm_compute; reflexivity).
Example C79_diff_at1 := C79_diff sum8 ex_reader None _ _ of_ex ex_forever.
Example C79_diff_at2 : eventually (diff_live sum8 (Some (reader_of two_bytes)) (Some (reader_of af_bytes))) (Some Panic).
Proof. destruct two_ends as [s' R]. exact (C79_diff sum8 _ (Some (reader_of af_bytes)) _ _ of_two R _ _ ltac:(repeat constructor) big_breaks). Qed.
Example C79_diff_at3 : eventually (diff_live sum8 (Some (reader_of two_bytes)) (Some (reader_of two_bytes))) (Some (Val (Some DiffOk))).
Proof. destruct two_ends as [s' R]. exact (C79_diff sum8 _ (Some (reader_of two_bytes)) _ _ of_two R _ _ of_two R). Qed.
Definition m79 : merger := mkMerger [1; 2]%N cds_time [] None None None.
Lemma before79 : Forall (fun x : N * reader => exists gs, group_reads (pdec_new (snd x)) gs Returned) [(1%N, reader_of two_bytes)].
Proof. apply Forall_cons; [|apply Forall_nil]. eexists. exact C79_group_inputs_at1. Qed.
Example C79_merge_at1 := C79_merge m79 [(1%N, reader_of two_bytes)] 2%N ex_reader [] [] _ _ before79 C79_group_inputs_at3.
Example C79_merge_at2 := C79_merge m79 [(1%N, reader_of two_bytes)] 2%N (reader_of af_bytes) [(3%N, ex_reader)] [] _ _ before79 C79_group_inputs_at2.
Example C79_merge_reads_at := C79_merge_reads m79 [(1%N, reader_of two_bytes); (2%N, reader_of two_bytes)] [_; _] [] ltac:(apply Forall2_cons; [exact C79_group_inputs_at1|]; apply Forall2_cons; [exact C79_group_inputs_at1|apply Forall2_nil]).
Lemma two_ok : bytes_ok two_bytes. Proof. vm_compute. repeat constructor. Qed.
Lemma af_ok : bytes_ok af_bytes. Proof. repeat constructor. Qed.
Example C79_agrees_info_at := C79_agrees_info true None two_bytes two_ok.
Example C79_agrees_diff_at := C79_agrees_diff sum8 two_bytes af_bytes two_ok af_ok.
Example C79_agrees_merge_at := C79_agrees_merge m79 [(1%N, two_bytes); (2%N, af_bytes)] [] ltac:(apply Forall_cons; [exact two_ok|]; apply Forall_cons; [exact af_ok|apply Forall_nil]).
Example C79_agrees_filter_at := C79_agrees_filter any d78 (mkFilterArgs [[55]] [] None None false 9 2)%N disk78 ltac:(discriminate).
