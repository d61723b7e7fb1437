(* Theorems of C18 - C20 and C23 - C30 applied to concrete, non-trivial cases: every hypothesis is met. *)
From Verif Require Import Base S_Bits M_Reader M_Packet M_Bytes M_Sync M_Pn S_Packet S_Sync S_Pn L_Base L_SyncBits L_Sync P_Sync P_Pn.
From Verif Require Import M_Merge S_Merge P_Merge.
Open Scope nat_scope.

Ltac ok := first
  [ reflexivity | discriminate | lia | (cbn; lia) | (cbn; auto; fail)
  | solve [repeat constructor; cbn; (reflexivity || lia)] ].

(* ---- C18 - C20: two files, three groups at two times, two of them at the same time ---- *)
Example C18_merge_selection_at := C18_merge_selection reversed mg_fs mg_m mg_ws reversed_ok mg_readable.
Example C18_unreadable_at := C18_unreadable in_order (fun p => if (p =? 1)%N then None else mg_fs p) mg_m
  ltac:(exists 1%N; split; [right; left; reflexivity|reflexivity]).
Definition mg_plain : merger := merger_new [0; 1]%N cds_time.
Lemma mg_plain_readable : forall order, readable mg_fs (with_apid_order mg_plain order) mg_ws.
Proof. intros order p H. apply mg_readable. exact H. Qed.
Example C19_merge_sorted_at := C19_merge_sorted reversed mg_fs mg_plain [826; 821]%N mg_ws eq_refl reversed_ok (mg_plain_readable _).
Example C19_without_order_at := C19_without_order mg_plain eq_refl.
Definition two_apids : list N := [826; 821]%N.
Lemma two_apids_once : NoDup two_apids.
Proof. repeat constructor; cbn; intuition discriminate. Qed.
Example C20_exact_order_at := C20_exact_order reversed mg_fs mg_plain two_apids mg_ws eq_refl two_apids_once ltac:(ok) reversed_ok (mg_plain_readable _).
Example C20_listed_order_reversed_refuted_at :=
  C20_listed_order_reversed_refuted reversed mg_fs mg_plain two_apids mg_ws eq_refl two_apids_once ltac:(ok) reversed_ok (mg_plain_readable _).
(* 826 is listed before 821, and is written after it *)
Example C20_listed_order_reversed_value : merge reversed mg_fs (with_apid_order mg_plain two_apids) =
  Val (Ok (concat (map wire_bytes [mg_wire 900 1 9 21999 [3]; mg_wire 821 3 7 22000 [1]; mg_wire 826 3 4 22000 [2]]%N))).
Proof. vm_compute. reflexivity. Qed.

(* ---- C23, C24, C26 - C29: a block that is 3 bits off, and two blocks in three reads ---- *)
Definition off3 : list N := [0x03; 0x59; 0xff; 0x83; 0xa0; 0x20; 0x5f]%N.
Definition off3_reads : reader := mkReader [EvData [0x03]; EvData [0x59; 0xff]; EvData [0x83; 0xa0; 0x20; 0x5f]]%N AtEof.
Definition off3_items : list (result block) := [Ok (mkBlock 0 (mkLoc 5 5) [1; 2]%N)].
Lemma asm_ok : bytes_ok ASM. Proof. ok. Qed.
Lemma asm_some : ASM <> []. Proof. discriminate. Qed.
Lemma off3_ok : bytes_ok off3. Proof. ok. Qed.
Lemma off3_delivers : delivers off3_reads off3. Proof. split; reflexivity. Qed.
Example C23_sync_exact_at := C23_sync_exact ASM 2 off3_reads off3 off3_items asm_ok asm_some off3_ok off3_delivers.
Example C23_sync_defined_at := C23_sync_defined ASM 2 off3_reads off3 asm_ok asm_some off3_ok off3_delivers.
Lemma off3_yields : yields biter_next (synchronize off3_reads ASM 2) off3_items.
Proof. apply (run_yields _ _ _ 10). vm_compute. reflexivity. Qed.
Example C24_block_data_at := C24_block_data ASM 2 off3_reads off3 off3_items asm_ok asm_some off3_ok off3_delivers off3_yields _ (or_introl eq_refl).

Definition two_blocks : list N := ASM ++ [1; 2]%N ++ [7]%N ++ ASM ++ [3; 4]%N.
Definition two_reads : reader := mkReader [EvData (ASM ++ [1]%N); EvData [2; 7]%N; EvData (ASM ++ [3; 4]%N)] AtEof.
Definition block1 : block := mkBlock 0 (mkLoc 5 0) [1; 2]%N.
Definition block2 : block := mkBlock 7 (mkLoc 12 0) [3; 4]%N.
Lemma two_ok : bytes_ok two_blocks. Proof. ok. Qed.
Lemma two_delivers : delivers two_reads two_blocks. Proof. split; reflexivity. Qed.
Lemma two_yields : yields biter_next (synchronize two_reads ASM 2) [Ok block1; Ok block2].
Proof. apply (run_yields _ _ _ 10). vm_compute. reflexivity. Qed.
Example C24_block_data_at' := C24_block_data ASM 2 two_reads two_blocks _ asm_ok asm_some two_ok two_delivers two_yields block2 (or_intror (or_introl eq_refl)).
Example C26_locations_at := C26_locations ASM 2 two_reads two_blocks _ asm_ok asm_some two_ok two_delivers two_yields [Ok block1] block2 [] eq_refl.
Example C26_first_data_bit_at := C26_first_data_bit ASM 2 two_reads two_blocks _ asm_ok asm_some two_ok two_delivers two_yields [Ok block1] block2 [] eq_refl.

(* C25: the marker itself as data, not at a byte boundary *)
Example C25_standard_marker_round_trip_at : exists bs, bits bs = [false; true; true] ++ flat_map (cadu_bits ASM) [ASM; [1; 2; 3; 4]%N] ++ [true; true; true; true; true] /\
  exists items, yields biter_next (synchronize (reader_of bs) ASM 4) (map Ok items) /\ map bl_data items = [ASM; [1; 2; 3; 4]%N].
Proof.
  destruct C25_ex_hyp as (bs & B & E & J & T). exists bs. split; [exact E|].
  apply (C25_standard_marker_round_trip 4 (reader_of bs) bs [false; true; true] [ASM; [1; 2; 3; 4]%N] [true; true; true; true; true]); auto.
  - apply delivers_file. intros ->. discriminate.
  - repeat constructor.
  - discriminate.
Qed.
Lemma early : forall q, q < 3 -> ~ occurs ASM ([false; true; true] ++ bits ASM) q.
Proof. intros q Q X. unfold occurs in X. do 3 (destruct q as [|q]; [vm_compute in X; discriminate|]). lia. Qed.
Example C25_cadu_round_trip_at : exists bs, bits bs = [false; true; true] ++ flat_map (cadu_bits ASM) [ASM; [1; 2; 3; 4]%N] ++ [true; true; true; true; true] /\
  exists items, yields biter_next (synchronize (reader_of bs) ASM 4) (map Ok items) /\ map bl_data items = [ASM; [1; 2; 3; 4]%N].
Proof.
  destruct C25_ex_hyp as (bs & B & E & J & T). exists bs. split; [exact E|].
  apply (C25_cadu_round_trip ASM 4 (reader_of bs) bs [false; true; true] [ASM; [1; 2; 3; 4]%N] [true; true; true; true; true]); auto using asm_ok, asm_some.
  - apply delivers_file. intros ->. discriminate.
  - repeat constructor.
  - exact early.
  - discriminate.
Qed.

(* C27 *)
Example C27_truncated_aligned_refuted_at := C27_truncated_aligned_refuted ASM 3 (reader_of (ASM ++ [9%N])) [9%N] asm_ok asm_some ltac:(ok) ltac:(ok) (proj2 C27_ex).
Lemma early3 : forall q, q < 3 -> ~ occurs ASM (bits off3) q.
Proof. intros q Q X. unfold occurs in X. do 3 (destruct q as [|q]; [vm_compute in X; discriminate|]). lia. Qed.
(* the block that was complete with length 2 is cut with length 3 *)
Example C27_truncated_shifted_refuted_at := C27_truncated_shifted_refuted ASM 3 off3_reads off3 [false; false; false] (skipn 35 (bits off3))
  asm_ok asm_some off3_ok off3_delivers eq_refl ltac:(discriminate) early3 ltac:(ok).
Definition cut_second : list N := removelast two_blocks.
Lemma cut_yields : yields biter_next (synchronize (reader_of cut_second) ASM 2) [Ok block1; Ok (mkBlock 7 (mkLoc 12 0) [3; 0]%N)].
Proof. apply (run_yields _ _ _ 10). vm_compute. reflexivity. Qed.
Example C27_nothing_after_at := C27_nothing_after ASM 2 (reader_of cut_second) cut_second _ [Ok block1] _ [] asm_ok asm_some ltac:(ok) (delivers_file cut_second ltac:(discriminate)) cut_yields eq_refl.

(* C28: a reader that fails, ends and goes on *)
Definition rough : reader := mkReader [EvData [0x1a; 0xcf]%N; EvFail (OtherIo 3); EvData []; EvData (ASM ++ [1; 2; 3]%N); EvFail Interrupted] AtEof.
Example C28_never_panics_at := fun items => C28_never_panics ASM 2 rough items asm_some.
Example C28_terminates_at := C28_terminates ASM 2 rough asm_some eq_refl.
Example C28_block_lengths_at := C28_block_lengths ASM 2 two_reads _ asm_some two_yields.

(* C29 *)
Example C29_chunking_at := fun items => C29_chunking ASM 2 two_reads (reader_of two_blocks) items eq_refl eq_refl.
Example C29_interrupted_refuted_at := C29_interrupted_refuted ASM 2 [0x1a]%N [0xcf; 0xfc; 0x1d]%N [1; 2]%N asm_ok eq_refl ltac:(discriminate) ltac:(discriminate) ltac:(ok) eq_refl C29_ex_hyp.

(* C30 *)
Example C30_derandomize_bits_at := C30_derandomize_bits [0; 1; 2; 0xff]%N 21 ltac:(ok).
Example C30_derandomize_length_bytes_at := proj2 (C30_derandomize_length_bytes [0; 1; 2; 0xff]%N) ltac:(ok).
Example C30_derandomize_bytewise_at := C30_derandomize_bytewise [0; 1; 2]%N [9; 9; 2; 4]%N 2 ltac:(ok) ltac:(ok) eq_refl.
