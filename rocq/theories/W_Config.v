(* Theorems of C90 - C95 applied to concrete, non-trivial cases: every hypothesis is met. *)
From Coq Require Import String.
From Coq Require Import List NArith ZArith Bool Lia Permutation Sorted.
From Verif Require Import Base S_Framing S_Bits S_Json S_Packet S_Sync S_Frame S_FrameLive M_Reader M_Packet M_Bytes M_Sync M_Pn M_Frame M_FramePackets M_Group S_Group M_ReedSolomon M_RsPipeline M_Live S_Live S_Pause M_Pipeline M_Pause
  M_Summary M_Timecode M_Merge S_Merge M_Cli S_Cli M_Main S_Main M_FrameLive M_Config S_Config M_Input S_Input M_Serde S_Serde S_Compose M_MergeTd S_MergeTd S_AnyFile M_MergeAny S_MergeAny
  L_Base L_Packet L_Group  P_FramePackets P_Pipeline P_CliFilter P_Main P_Main2 P_FrameLive P_Merge P_Config P_Input P_Serde P_Compose P_MergeTd P_MergeAny.
Import ListNotations.
Open Scope N_scope.

(* ---- C90 ---- *)
Definition v90 : jval := VObj ((text "rs", cx_rs) :: cx_members ++ [(text "asm", VArr [VInt 26; VInt 207; VInt 252; VInt 29])]).
Definition c90 : full_config := mkFull (Some [26; 207; 252; 29]) 157 892 true (Some (4, 0)).
Example C90_config_at : config_is v90 c90 := proj1 (C90_config v90 c90) (proj1 C90_ex).
Example C90_other_members_at := C90_other_members cx_members [(text "RS", cx_rs)] (cx_members ++ [(text "RS", cx_rs)]) C90_ex_other (Permutation_app_comm cx_members [(text "RS", cx_rs)]).
Definition fs90 : fsys := aset 5 [123; 125] fx_fs.
Definition parse90 (bs : list N) : option jval := if (List.length bs =? 2)%nat then Some v90 else None.
Example C90_framing_at := proj1 (C90_framing parse90 true ok_codec 2 (fun _ => true) fs90 5 (fx_args None None) ltac:(discriminate)) [123; 125] v90 c90 eq_refl eq_refl C90_config_at.
(* a file that is no config *)
Example C90_framing_fails_at := proj2 (C90_framing parse90 true ok_codec 2 (fun _ => true) fx_fs 5 (fx_args None None) ltac:(discriminate))
  ltac:(intros (bs & v & c & E & _); discriminate E).
Example C90_options_kept_at := C90_options_kept (fx_args None (Some 4%nat)) (Some (used c90)).
Example C90_no_config_at := fun x fs' r => C90_no_config parse90 true ok_codec 2 (fun _ => true) fx_fs (fx_args None None) _ x fs' r (C90_options_kept (fx_args None None) None).
Definition doc90 : list (list N * jval) := [(text "scid", VInt 157); (text "type", VStr (text "aos")); (text "length", VInt 892); (text "pn", VBool true)].
Example C90_documented_refuted_at := fun x fs' r => C90_documented_refuted (fun _ => Some (VObj doc90)) true ok_codec 2 (fun _ => true) fs90 5 (fx_args None None) [123; 125] doc90 x fs' r ltac:(discriminate) eq_refl eq_refl ltac:(right; left; reflexivity).
Example C90_values_at : exists len p i e, framing_setup (with_config (fx_args None None) (Some (used c90))) = Some (len, p, i, e) /\ N.of_nat len = 892 /\ pl_derandomize p = true.
Proof.
  assert (X : exists x, framing_setup (with_config (fx_args None None) (Some (used c90))) = Some x) by (eexists; vm_compute; reflexivity).
  destruct X as [[[[len p] i] e] X]. destruct (C90_values _ c90 _ _ _ _ X) as (A & _ & B & _). exists len, p, i, e. auto.
Qed.

(* ---- C91 ---- *)
Open Scope nat_scope.
Definition b91 : list N := ASM ++ fx_frame 3 ++ ASM ++ fx_frame 63.
Definition pieces91 : reader := mkReader [EvData (firstn 5 b91); EvFail Interrupted; EvData (skipn 5 b91)] AtEof.
Definition pieces91' : reader := mkReader [EvData (firstn 2 b91); EvData (skipn 2 (firstn 5 b91)); EvFail Interrupted; EvData (skipn 5 b91)] AtEof.
Example C91_reads_at := C91_reads true (fun _ => true) pieces91 pieces91' (ix_args 7) eq_refl eq_refl.
Example C91_reads_rs_at := fun s c st => C91_reads_rs true ok_codec 2 8 (pipeline_new 8) (mkRsOpts 1 215 1 3 true true) false [] [] true pieces91 pieces91' s c st eq_refl eq_refl.
(* the same bytes over a connection, as one piece *)
Definition net91 : world := mkWorld (reader_of []) (fun _ => false) (fun _ => None) (fun n => if (n =? 4)%N then Some (reader_of b91) else None).
Lemma net91_source : source 7 net91 4 (reader_of b91).
Proof. apply from_network; [discriminate|reflexivity|reflexivity]. Qed.
Example C91_any_source_at := C91_any_source parse90 true (fun _ => true) 7 ix_world net91 [] None (ix_args 7) 4 _ _ b91 (proj1 C91_ex) net91_source (proj1 (proj2 C91_ex)) ltac:(split; reflexivity).
Example C91_runs_at := C91_runs parse90 true (fun _ => true) 7 net91 fs90 (Some 5%N) (ix_args 4) _ (Some (used c90)) net91_source ltac:(exists [123; 125]%N, v90, c90; split; [reflexivity|]; split; [reflexivity|]; split; [exact C90_config_at|reflexivity]).
Example C91_fails_at := proj1 (proj1 (C91_fails (fun _ => None) true (fun _ => true) 7 (mkWorld (reader_of []) (fun _ => false) (fun _ => None) (fun _ => None)) [] None (ix_args 1) 20)) (f_equal (fun x => fst (fst x)) (proj1 C91_ex_fails)).
Definition dir91 : world := mkWorld (reader_of []) (fun _ => true) (fun _ => Some (mkReader [] (Failing 21))) (fun _ => None).
Example C91_directory_refuted_at : forall n, framing_any parse90 true (fun _ => true) 7 dir91 [] None (ix_args 1) n = (Going, Some [], None).
Proof.
  destruct (proj2 C91_ex_fails) as (len & p & i & e & E & R). intro n.
  exact (C91_directory_refuted parse90 true (fun _ => true) 7 dir91 [] (ix_args 1) 21 len p i e ltac:(discriminate) eq_refl eq_refl E R (fun _ _ => eq_refl) n).
Qed.

(* ---- C92 ---- *)
Open Scope N_scope.
Example C92_reads_at : packet_is (ser_packet doc_packet) doc_packet := proj1 (proj1 (C92_reads _) _) (proj2 (proj2 C92_ex_packet)).
Example C92_round_trip_at := proj1 C92_round_trip doc_packet (proj1 (proj2 C92_ex_packet)).
Example C92_decoded_at := proj1 C92_decoded doc_bytes doc_packet ltac:(vm_compute; repeat constructor) (proj1 C92_ex_packet).
Example C92_reads_summary_at := C92_reads_summary (sum_of "5" "5").
Example C92_summary_at : exists s s', summary_add_all true summary0 [doc_packet; doc_next; doc_other] = Val s /\
  de_summary (ser_summary s (rev (s_apids s)) (s_seen s)) = Some s' /\ same_counts s s'.
Proof.
  destruct (C92_ex_summary true) as (s & E & F & _).
  destruct (C92_summary true _ s (rev (s_apids s)) (s_seen s) E) as (s' & D & C & _); [repeat constructor|exact F|apply Permutation_rev|apply Permutation_refl|].
  exists s, s'. auto.
Qed.
Example C92_unchecked_refuted_at := C92_unchecked_refuted true.

(* ---- C94 ---- *)
Lemma r94 : forall x y, y <> 1 -> x <> y -> ready (fun _ => true) cp_fs (cp_apid x y).
Proof. intros x y A B. apply cp_ready. auto. Qed.
Lemma rt94 : forall x y, y <> 1 -> x <> y -> ready (fun _ => true) cp_fs (cp_time x y).
Proof. intros x y A B. assert (X := r94 x y A B). exact X. Qed.
Example C94_apid_filters_at := C94_apid_filters (fun _ => true) cp_fs (cp_apid 1 2) (cp_apid 2 3) _ cp_ws [7] [] [7] [] (proj1 C94_ex_ready) (proj1 (proj2 C94_ex_ready)) eq_refl eq_refl cp_file
  ltac:(split; reflexivity) ltac:(split; reflexivity) (conj (proj1 cp_numbers) (proj1 (proj2 cp_numbers))) (proj2 (proj2 cp_numbers)) (conj (proj1 cp_numbers) (proj1 (proj2 cp_numbers))) (proj2 (proj2 cp_numbers)).
Lemma g94 : exists gs, grouping (packets_at 0 cp_ws) gs.
Proof. exists (fst (run giter_next 9%nat (giter_new (packets_at 0 cp_ws)))). apply groups_exact. apply run_yields with (fuel := 9%nat). vm_compute. reflexivity. Qed.
Example C94_time_then_apid_at : exists ka kb, piped (fun _ => true) cp_fs (cp_time 1 2) (cp_apid 2 3) (concat (map group_bytes ka)) (concat (map group_bytes kb)).
Proof.
  destruct g94 as [gs G]. destruct cp_numbers as (A & B & C).
  destruct (C94_time_then_apid (fun _ => true) cp_fs (cp_time 1 2) (cp_apid 2 3) _ cp_ws gs [] [] [7] []
    (rt94 1 2 ltac:(discriminate) ltac:(discriminate)) (r94 2 3 ltac:(discriminate) ltac:(discriminate)) eq_refl eq_refl cp_file G
    ltac:(right; discriminate) ltac:(split; reflexivity) (conj B B) (conj A B) C) as (ka & kb & P & _). exists ka, kb. exact P.
Qed.
Example C94_one_command_at : exists fs', filter_command (fun _ => true) cp_fs cp_both = Val (Success, fs') /\ only_written cp_fs 9 cp_day2 fs'.
Proof.
  destruct g94 as [gs G]. destruct cp_numbers as (A & B & C).
  exact (C94_one_command (fun _ => true) cp_fs (cp_time 1 2) (cp_apid 2 3) cp_both _ cp_ws gs [] [] [7] [] cp_day2 cp_day2
    (rt94 1 2 ltac:(discriminate) ltac:(discriminate)) (r94 2 3 ltac:(discriminate) ltac:(discriminate)) eq_refl eq_refl cp_file G
    ltac:(right; discriminate) ltac:(split; reflexivity) (conj B B) (fun v H => match H with end) (conj A B) C
    ltac:(first [exact (r94 1 9 ltac:(discriminate) ltac:(discriminate))]) eq_refl eq_refl eq_refl (conj A B) (proj1 C94_ex)).
Qed.

(* ---- C95 ---- *)
Example C95_panics_at := C95_panics in_2018 true (Cds 2 2) any_regs reversed any_fs (with_apid_order any_m0 [900%N]) reversed_ok.
Example C95_merge_at := C95_merge in_2018 true (Cds 2 2) any_regs reversed any_fs any_m0 [900%N] any_ws (proj1 C95_ex) (proj1 (proj2 (proj2 (proj2 C95_ex)))) (proj1 (proj2 C95_ex)) (proj1 (proj2 (proj2 C95_ex))) (proj1 (proj2 (proj2 (proj2 (proj2 C95_ex))))).
Example C95_one_scale_at := C95_one_scale true (decoder (Cds 2 2) any_regs) reversed any_fs (with_apid_order any_m0 [900%N]).
