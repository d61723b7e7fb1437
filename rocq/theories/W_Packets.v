(* Theorems of C01 - C17 and C54 applied to concrete, non-trivial cases: every hypothesis is met. Each definition is
   the theorem with its arguments and proofs of its hypotheses for them. *)
From Coq Require Import Floats.SpecFloat.
From Verif Require Import Base S_Bits S_Timecode M_Reader M_Packet M_Group M_Summary M_Timecode S_Packet S_Group P_Packet P_Group P_Timecode.
Open Scope N_scope.

Ltac ok := first
  [ reflexivity | discriminate | lia | (cbn; lia) | (cbn; auto; fail)
  | solve [repeat constructor; cbn; (reflexivity || lia)]
  | solve [left; cbn; lia] | solve [right; cbn; lia] ].

(* C01 *)
Definition hdr_bytes : list N := [0xd; 0x59; 0xd2; 0xab; 0x0; 0x8].
Example C01_header_fields_at := C01_header_fields (hdr_bytes ++ [0xff]) ltac:(ok) ltac:(ok).
Example C01_header_short_at := C01_header_short [0xd; 0x59; 0xd2] ltac:(ok).
Example C01_header_encode_at := C01_header_encode (mkHeader 0 0 true 1369 3 4779 8) [0xff] ltac:(ok) ltac:(ok).
Example C01_header_injective_at := C01_header_injective hdr_bytes hdr_bytes ltac:(ok) ltac:(ok) ltac:(ok) ltac:(ok) ltac:(ok).
(* what fails for different bytes is the equality of the headers *)
Example C01_header_injective_else : header_decode hdr_bytes <> header_decode [0xd; 0x59; 0xd2; 0xab; 0x0; 0x9].
Proof. intro H. apply C01_header_injective in H; [discriminate|ok..]. Qed.

(* C02: a packet with a byte to spare, and one with a byte missing *)
Definition two_bytes : list N := [0xd; 0x59; 0xd2; 0xab; 0x0; 0x1; 7; 8].
Example C02_packet_decode_at := C02_packet_decode (two_bytes ++ [9]) ltac:(ok).
Example C02_packet_decode_at' := C02_packet_decode (removelast two_bytes) ltac:(ok).
Example C02_packet_decode_extend_at := C02_packet_decode_extend two_bytes [9; 10] (mkPacket (mkHeader 0 0 true 1369 3 4779 1) two_bytes 0) ltac:(ok) ltac:(ok) ltac:(ok).

(* C03 *)
Definition two_wires : list wire_packet := [ex_wire 5 [1; 2; 3]; ex_wire 6 [0x1a]].
Definition cut_off : list N := [0xd; 0x59; 0xd2; 0xab; 0x0; 0x1; 7].
Lemma cut_off_incomplete : incomplete cut_off. Proof. right. vm_compute. lia. Qed.
Example C03_decode_stream_at := C03_decode_stream two_wires cut_off ltac:(ok) ltac:(ok) ltac:(ok) cut_off_incomplete ltac:(intros _; vm_compute; discriminate).

(* C04 *)
Definition in_one : reader := mkReader [EvData [1; 2]; EvFail Interrupted; EvData [3]; EvFail (OtherIo 5); EvData [4]] AtEof.
Definition in_bits : reader := mkReader [EvFail Interrupted; EvData [1]; EvData [2; 3]; EvFail (OtherIo 5); EvData [4]; EvFail Interrupted] AtEof.
Example C04_chunking_at := fun items => C04_chunking in_one in_bits items C04_ex ltac:(ok).
Example C04_chunks_transcript_at := C04_chunks_transcript [EvData [1; 2]; EvFail Interrupted; EvData [3]] [1; 2; 3]
  ltac:(repeat (apply Forall_cons; [solve [left; reflexivity | right; do 2 eexists; reflexivity]|]); apply Forall_nil) eq_refl.

(* C05: a header that announces 65536 bytes, and an ordinary packet *)
Definition longest : list N := [0; 0; 0xc0; 0; 0xff; 0xff].
Example C05_panic_exact_at := C05_panic_exact (pdec_new (reader_of longest)) ltac:(ok).
Example C05_panic_exact_at_true : pdec_next (pdec_new (reader_of longest)) = Panic.
Proof. apply C05_panic_exact_at. exists longest, []. repeat split; reflexivity. Qed.
Example C05_panic_exact_at' := C05_panic_exact (pdec_new (reader_of two_bytes)) ltac:(ok).
Example C05_max_length_refuted_at : exists w, wire_ok w /\ packet_decode (wire_bytes w) = Val (Ok (mkPacket (w_header w) (wire_bytes w) 0)) /\
  pdec_next (pdec_new (reader_of (wire_bytes w))) = Panic.
Proof. destruct C05_ex as (w & W & L). exists w. split; [exact W|]. exact (C05_max_length_refuted w W L). Qed.

(* C06: a read error inside a header *)
Definition failing_once : reader := mkReader [EvData [0xd; 0x59; 0xd2]; EvFail (OtherIo 7); EvData two_bytes] AtEof.
Lemma header_incomplete : incomplete [0xd; 0x59; 0xd2]. Proof. left. cbn. lia. Qed.
Example C06_error_forwarded_at := C06_error_forwarded (pdec_new failing_once) [0xd; 0x59; 0xd2] (OtherIo 7) (map TByte two_bytes)
  eq_refl ltac:(ok) header_incomplete ltac:(cbn; lia) ltac:(ok).
Example C06_nothing_swallowed_or_invented_at := C06_nothing_swallowed_or_invented (pdec_new failing_once) ltac:(ok).
(* C07 *)
Example C07_terminates_on_finite_readers_at := C07_terminates_on_finite_readers (pdec_new failing_once) ltac:(ok) eq_refl.

(* C08, with the counter rolling over *)
Example C08_missing_packets_at := C08_missing_packets true 2 16380 ltac:(ok) ltac:(ok).
Example C08_zero_iff_successor_at := C08_zero_iff_successor false 0 16383 ltac:(ok) ltac:(ok).

(* C10, C11, C12 *)
Definition first_run : list packet := [ex_pkt 9 1 16382; ex_pkt 9 0 16383; ex_pkt 9 2 0].
Definition second_run : list packet := [ex_pkt 9 1 1; ex_pkt 9 2 2].
Example C10_back_to_back_groups_refuted_at := C10_back_to_back_groups_refuted true 9
  (ex_pkt 9 1 16382) [ex_pkt 9 0 16383] (ex_pkt 9 2 0) (ex_pkt 9 1 1) [] (ex_pkt 9 2 2)
  ltac:(ok) ltac:(ok) ltac:(ok) ltac:(ok) ltac:(ok).
Example C11_have_missing_at := C11_have_missing true (mkGroup 9 [ex_pkt 9 1 16383; ex_pkt 9 0 1]) ltac:(ok) ltac:(ok).
Example C11_complete_at := C11_complete true (mkGroup 9 first_run) ltac:(ok).
Example C12_summary_totals_at := C12_summary_totals true [ex_pkt 9 3 10; ex_pkt 8 3 2; ex_pkt 9 3 13; ex_pkt 8 3 1] ltac:(ok).

(* C13 - C16 *)
Definition cds_bytes : list N := [0x5f; 0x5b; 0x00; 0x00; 0x06; 0x94; 0x02; 0x07].
Example C13_cds_value_at := C13_cds_value true 2 2 cds_bytes ltac:(ok) ltac:(ok) ltac:(right; reflexivity) ltac:(ok).
Example C13_cds_trailing_ignored_at := C13_cds_trailing_ignored false 2 2 cds_bytes [1; 2; 3] ltac:(ok) ltac:(ok).
Example C13_cds_short_at := C13_cds_short true 2 2 [0x5f; 0x5b; 0; 0; 6; 0x94; 2] ltac:(ok).
Example C13_cds_bad_submillis_at := fun e => C13_cds_bad_submillis true 2 1 cds_bytes e ltac:(ok) ltac:(ok) ltac:(ok) ltac:(ok).
Definition pico_bytes (x : N) : list N := [0x5f; 0x5b; 0; 0; 6; 0x94; 0; 0; 0x10; x].
Example C14_submillis4_exact_at := C14_submillis4_exact true 2 (pico_bytes 0xc6) ltac:(ok) ltac:(ok) ltac:(ok).
Example C14_submillis4_exact_at' := C14_submillis4_exact false 2 (pico_bytes 0xc7) ltac:(ok) ltac:(ok) ltac:(ok).
Example C14_picoseconds_refuted_at : exists e, timecode_decode true (Cds 2 4) (pico_bytes 0xc6) = Val (Ok e) /\
  (ep_nanos e > epoch1958 + Z.of_N (field (pico_bytes 0xc6) 0 16) * ns_per_day + Z.of_N (field (pico_bytes 0xc6) 16 32) * 1000000 + 4294 / 1000 + 1)%Z.
Proof.
  eexists. split; [reflexivity|].
  apply (C14_picoseconds_refuted 2 (pico_bytes 0xc6)); [ok|ok|ok|vm_compute; discriminate|reflexivity].
Qed.
Example C15_cuc_value_at := C15_cuc_value true 4 2 15564800 (-10) [0; 0; 1; 0; 0xff; 0xff; 9] ltac:(ok) ltac:(ok) ltac:(ok) ltac:(ok) eq_refl.
Example C15_cuc_default_mult_at := C15_cuc_default_mult true 4 2 [0; 0; 1; 0; 0xff; 0xff; 9] ltac:(ok) ltac:(ok) ltac:(ok) ltac:(ok).
Example C15_cuc_other_mult_at := C15_cuc_other_mult true 1 1 (S754_infinity false) [1; 1] ltac:(ok) ltac:(ok) ltac:(ok) ltac:(ok).
Example C15_cuc_errors_at := proj1 (C15_cuc_errors true 5 1 None [1; 2; 3; 4; 5; 6]) ltac:(right; left; lia).
Example C15_cuc_errors_at' := proj2 (C15_cuc_errors true 4 2 None [1; 2; 3]) ltac:(ok) ltac:(ok) ltac:(ok).
Example C16_cds_panic_exact_at := C16_cds_panic_exact true 5 0 [1; 2; 3; 4; 5; 6; 7; 8; 9] ltac:(ok).
Example C16_cds_panic_exact_at' := C16_cds_panic_exact true 2 4 (pico_bytes 0xc7) ltac:(ok).

(* C17: apid 9 registered twice, apid 8 not at all *)
Definition timed (a : N) : packet := mkPacket (mkHeader 0 0 true a 3 1 8) ([0; a; 0xc0; 1; 0; 7] ++ cds_bytes) 0.
Example C17_registered_format_at := C17_registered_format true (Cds 3 0) [(Cuc 4 2 None, [9; 7])] (Cds 2 2) [9; 10] [(Cuc 4 3 None, [7])] (timed 9)
  ltac:(left; reflexivity) ltac:(intros r [<-|[]] [E|[]]; discriminate) ltac:(ok).
Example C17_registered_format_value : tdecoder_decode true (fold_left (fun t r => tdecoder_register t (fst r) (snd r))
    [(Cuc 4 2 None, [9; 7]); (Cds 2 2, [9; 10]); (Cuc 4 3 None, [7])] (tdecoder_new (Cds 3 0))) (timed 9)
  = Val (Ok (mkEpoch UTC (45595 * ns_per_day + 1684519000)%Z)).
Proof. refine (eq_trans C17_registered_format_at _). reflexivity. Qed.
Example C17_default_format_at := C17_default_format true (Cds 2 2) [(Cuc 4 2 None, [9; 7])] (timed 8)
  ltac:(intros r [<-|[]] [E|[E|[]]]; discriminate) ltac:(ok).

(* C54 *)
Example C54_jpss_helper_at := C54_jpss_helper true cds_bytes ltac:(ok) ltac:(ok).
