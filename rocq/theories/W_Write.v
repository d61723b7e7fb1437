(* Theorems of C77 applied to concrete, non-trivial cases: every hypothesis is met. *)
From Coq Require Import Permutation.
From Verif Require Import Base M_Reader M_Packet M_Group S_Packet S_Group M_Frame M_ReedSolomon M_RsPipeline M_Pipeline M_Merge S_Merge M_Cli S_Cli M_Main S_Main M_Write S_Write
  P_CliFilter P_CliFrame P_Pipeline P_Merge P_Main P_Main2 P_Write W_Cli.
Open Scope nat_scope.

Definition wr : writer := mkWriter [WAccept 2; WFail Interrupted; WAccept 3; WFail (OtherIo 28)] Accepts [7; 7]%N.
Example C77_write_all_at : exists w', write_all [1; 2; 3; 4; 5; 6]%N wr = (Some (OtherIo 28), w') /\ written_to wr w' [1; 2; 3; 4; 5; 6]%N None Some (Some (OtherIo 28)).
Proof.
  assert (X : exists w', write_all [1; 2; 3; 4; 5; 6]%N wr = (Some (OtherIo 28), w')) by (eexists; vm_compute; reflexivity). destruct X as [w' X]. exists w'. split; [exact X|].
  exact (C77_write_all _ _ _ _ X).
Qed.
Definition m2 : merger := mkMerger [1]%N cds_time [] None None None.
Definition fs2 : files := fun p => if (p =? 1)%N then Some two_bytes else None.
Lemma merge2 : exists out, merge in_order_h fs2 m2 = Val (Ok out) /\ out = two_bytes.
Proof. eexists. split; vm_compute; reflexivity. Qed.
Example C77_merge_at : exists r w', merge_to in_order_h fs2 m2 wr = Val (r, w') /\ written_to wr w' two_bytes (Ok tt) (fun k => Err (Io k)) r.
Proof. destruct merge2 as (out & E & ->). exact (C77_merge in_order_h fs2 m2 two_bytes wr E). Qed.
Lemma cmd_merge : exists fs0, merge_command in_order_h any mx_fs (mg1 true 2 [1]%N) = Val (Success, fs0) /\ aget 2 fs0 = Some (wire_bytes (fl_wire 7 1) ++ wire_bytes (fl_wire 8 2)).
Proof. eexists. split; vm_compute; reflexivity. Qed.
Definition ev28 : list wevent := [WAccept 4; WFail Interrupted; WFail (OtherIo 28)].
Example C77_merge_command_at : exists full x fs', merge_command_to in_order_h any ev28 Accepts mx_fs (mg1 true 2 [1]%N) = Val (x, fs') /\
  output_after mx_fs 2%N full Success ev28 Accepts x fs' /\ full = two_bytes.
Proof.
  destruct cmd_merge as (fs0 & E & G). destruct (C77_merge_command in_order_h any ev28 Accepts mx_fs (mg1 true 2 [1]%N) Success fs0 E) as [(X & _)|(full & x & fs' & A & B & C)]; [discriminate|].
  exists full, x, fs'. split; [exact B|]. split; [exact C|]. cbn [ma_output mg1] in A. rewrite G in A. injection A as <-. reflexivity.
Qed.
Lemma cmd_filter : exists fs0, filter_command any mx_fs (f8 None) = Val (Success, fs0) /\ aget 3 fs0 = Some (wire_bytes (fl_wire 8 2)).
Proof. eexists. split; vm_compute; reflexivity. Qed.
Example C77_filter_command_at : exists full x fs', filter_command_to any ev28 Accepts mx_fs (f8 None) = Val (x, fs') /\
  output_after mx_fs 3%N full Success ev28 Accepts x fs' /\ full = wire_bytes (fl_wire 8 2).
Proof.
  destruct cmd_filter as (fs0 & E & G). destruct (C77_filter_command any ev28 Accepts mx_fs (f8 None) Success fs0 E) as [(X & _)|(full & x & fs' & A & B & C)]; [discriminate|].
  exists full, x, fs'. split; [exact B|]. split; [exact C|]. cbn [fa_output f8] in A. rewrite G in A. injection A as <-. reflexivity.
Qed.
(* a file of the merge does not exist *)
Example C77_merge_error_at : exists e full, merge in_order_h (fun _ => None) m2 = Val (Err e) /\ merge_written in_order_h (fun _ => None) m2 = Val full /\
  exists e' w', merge_to in_order_h (fun _ => None) m2 wr = Val (Err e', w') /\ written_to wr w' full e Io e'.
Proof.
  do 2 eexists. split; [vm_compute; reflexivity|]. split; [vm_compute; reflexivity|]. apply C77_merge_error; vm_compute; reflexivity.
Qed.
Example C77_framing_command_at : exists full x fs' s, framing_command_to true ok_codec 2 ev28 Accepts fx_fs (fx_args None None) x fs' s /\
  output_after fx_fs 2%N full Success ev28 Accepts x fs' /\ full = fx_frame 3.
Proof.
  destruct (C59_ex ok_codec 2) as (all & rows & R & _).
  destruct (C77_framing_command true ok_codec 2 _ ev28 Accepts fx_fs (fx_args None None) 2%N _ _ eq_refl R) as (full & x & fs' & s & A & B & C & _).
  exists full, x, fs', s. split; [exact B|]. split; [exact C|]. cbn in A. injection A as <-. reflexivity.
Qed.
Lemma rel : reliable [WAccept 4; WFail Interrupted; WAccept 4] Accepts.
Proof. split; [reflexivity|]. repeat (apply Forall_cons; [first [left; reflexivity | right; eexists; split; [|reflexivity]; lia]|]). apply Forall_nil. Qed.
Example C77_short_writes_at : exists w', merge_to in_order_h fs2 m2 (mkWriter [WAccept 4; WFail Interrupted; WAccept 4] Accepts [9]%N) = Val (Ok tt, w') /\ w_got w' = [9]%N ++ two_bytes.
Proof. destruct merge2 as (out & E & ->). exact (proj1 (C77_short_writes _ _ rel) _ _ _ _ _ E). Qed.
Example C77_device_full_at : exists w', merge_to in_order_h fs2 m2 (mkWriter (room_evs 9) (Refuses 28) []) = Val (Err (Io (OtherIo 28)), w') /\ w_got w' = firstn 9 two_bytes.
Proof. destruct merge2 as (out & E & ->). exact (proj1 (C77_device_full 9 28) _ _ _ _ [] E). Qed.
Example C77_device_full_at2 : exists fs', filter_command_to any (room_evs 9) (Refuses 28) mx_fs (f8 None) = Val (Failure, fs') /\ only_written mx_fs 3%N (firstn 9 (wire_bytes (fl_wire 8 2))) fs'.
Proof. destruct cmd_filter as (fs0 & E & A). exact (proj1 (proj2 (proj2 (C77_device_full 9 28))) any mx_fs (f8 None) fs0 _ E A). Qed.
Example C77_stopped_at : exists r1 r2 w1 w2, merge_to in_order_h fs2 m2 (mkWriter [WAccept 4] (Refuses 28) []) = Val (r1, w1) /\
  merge_to in_order_h fs2 m2 (mkWriter ([WAccept 4] ++ [WAccept 5; WFail Interrupted]) Accepts []) = Val (r2, w2) /\ beginning (w_got w1) (w_got w2) /\ w_got w1 <> w_got w2.
Proof.
  destruct merge2 as (out & E & _).
  assert (A : exists r1 w1, merge_to in_order_h fs2 m2 (mkWriter [WAccept 4] (Refuses 28) []) = Val (r1, w1) /\ w_got w1 = firstn 4 two_bytes) by (do 2 eexists; split; vm_compute; reflexivity).
  assert (B : exists r1 w1, merge_to in_order_h fs2 m2 (mkWriter ([WAccept 4] ++ [WAccept 5; WFail Interrupted]) Accepts []) = Val (r1, w1) /\ w_got w1 = two_bytes) by (do 2 eexists; split; vm_compute; reflexivity).
  destruct A as (r1 & w1 & A & GA). destruct B as (r2 & w2 & B & GB). exists r1, r2, w1, w2. split; [exact A|]. split; [exact B|].
  split; [exact (proj1 (proj1 (C77_stopped [WAccept 4] [WAccept 5; WFail Interrupted] Accepts 28) _ _ _ _ _ _ _ _ _ E A B))|]. rewrite GA, GB. vm_compute. discriminate.
Qed.
