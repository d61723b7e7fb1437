(* C73: missing_packets and missing_frames on every value of their argument types (both are public functions; in
   range arguments are C08 and C32). C74: the classification predicates. *)
From Verif Require Import Base S_Bits M_Reader M_Packet M_Group M_Frame M_ReedSolomon.
From Verif Require Import S_Packet L_Bits L_Packet P_Packet P_Frame.
Open Scope N_scope.

(* ---- C73 ---- *)
Theorem C73_missing_packets_checked : forall cur last, cur < 65536 -> last < 65536 ->
  missing_packets true cur last =
    if last =? 65535 then Panic
    else if (16383 <=? last) && (cur =? 0) then Val 0
    else if last <? cur then Val (cur - last - 1)
    else if (65536 <=? cur + 16383) || (cur + 16383 <? last) then Panic
    else Val (cur + 16383 - last).
Proof.
  intros cur last Hc Hl. unfold missing_packets, add_w, sub_w, SEQ_MAX. change (2 ^ 16) with 65536.
  destruct (N.eqb_spec last 65535) as [->|N1]; [reflexivity|].
  destruct (N.ltb_spec (last + 1) 65536); [|lia]. cbn [obind].
  destruct (N.ltb_spec 16383 (last + 1)) as [A|A]; destruct (N.leb_spec 16383 last) as [B|B]; try lia; cbn [andb].
  - destruct (N.eqb_spec cur 0); [reflexivity|]. cbn [negb].
    destruct (N.ltb_spec cur (last + 1)), (N.ltb_spec last cur); try lia.
    + destruct (N.ltb_spec (cur + 16383) 65536), (N.leb_spec 65536 (cur + 16383)); try lia; cbn [obind orb]; [|reflexivity].
      destruct (N.leb_spec last (cur + 16383)), (N.ltb_spec (cur + 16383) last); try lia; reflexivity.
    + destruct (N.leb_spec last cur); [|lia]. cbn [obind]. destruct (N.leb_spec 1 (cur - last)); [reflexivity|lia].
  - destruct (N.eqb_spec cur (last + 1)) as [E|E]; cbn [negb].
    + destruct (N.ltb_spec last cur); [|lia]. f_equal. lia.
    + destruct (N.ltb_spec cur (last + 1)), (N.ltb_spec last cur); try lia.
      * destruct (N.ltb_spec (cur + 16383) 65536), (N.leb_spec 65536 (cur + 16383)); try lia; cbn [obind orb].
        destruct (N.leb_spec last (cur + 16383)), (N.ltb_spec (cur + 16383) last); try lia; reflexivity.
      * destruct (N.leb_spec last cur); [|lia]. cbn [obind]. destruct (N.leb_spec 1 (cur - last)); [reflexivity|lia].
Qed.

(* without overflow checks: the same value modulo 2^16, and 0xffff counts as the predecessor of 0 *)
Theorem C73_missing_packets_wrapping : forall cur last, cur < 65536 -> last < 65536 ->
  missing_packets false cur last = Val (
    if (16383 <=? last) && (cur =? 0) then 0
    else if last =? 65535 then cur
    else if last <? cur then cur - last - 1
    else (cur + 16383 + 65536 - last) mod 65536).
Proof.
  intros cur last Hc Hl. unfold missing_packets, add_w, sub_w, SEQ_MAX. change (2 ^ 16) with 65536.
  destruct (N.eqb_spec last 65535) as [->|N1].
  - change (65535 + 1 <? 65536) with false. cbn [obind]. change ((65535 + 1) mod 65536) with 0.
    change (16383 <? 0) with false. change (16383 <=? 65535) with true. cbn [andb].
    destruct (N.eqb_spec cur 0); cbn [negb]; [reflexivity|].
    destruct (N.ltb_spec cur 0); [lia|].
    destruct (N.leb_spec 65535 cur); cbn [obind].
    + assert (cur = 65535) by lia. subst cur. reflexivity.
    + destruct (N.leb_spec 1 (cur + 65536 - 65535)); [|lia]. f_equal. lia.
  - destruct (N.ltb_spec (last + 1) 65536); [|lia]. cbn [obind].
    assert (M : forall x, x < 65536 -> (x + 65536) mod 65536 = x).
    { intros x Hx. rewrite <- (N.mul_1_l 65536) at 1. rewrite N.mod_add by lia. apply N.mod_small. exact Hx. }
    destruct (N.ltb_spec 16383 (last + 1)) as [A|A]; destruct (N.leb_spec 16383 last) as [B|B]; try lia; cbn [andb].
    + destruct (N.eqb_spec cur 0); [reflexivity|]. cbn [negb].
      destruct (N.ltb_spec cur (last + 1)), (N.ltb_spec last cur); try lia.
      * destruct (N.ltb_spec (cur + 16383) 65536); cbn [obind].
        -- destruct (N.leb_spec last (cur + 16383)); f_equal.
           ++ replace (cur + 16383 + 65536 - last) with ((cur + 16383 - last) + 65536) by lia. symmetry. apply M. lia.
           ++ symmetry. apply N.mod_small. lia.
        -- assert (X : (cur + 16383) mod 65536 = cur + 16383 - 65536).
           { rewrite <- (M (cur + 16383 - 65536)) by lia. f_equal. lia. }
           rewrite X. destruct (N.leb_spec last (cur + 16383 - 65536)); [lia|]. f_equal.
           replace (cur + 16383 - 65536 + 65536 - last) with (cur + 16383 - last) by lia.
           replace (cur + 16383 + 65536 - last) with ((cur + 16383 - last) + 65536) by lia. symmetry. apply M. lia.
      * destruct (N.leb_spec last cur); [|lia]. cbn [obind]. destruct (N.leb_spec 1 (cur - last)); [reflexivity|lia].
    + destruct (N.eqb_spec cur (last + 1)) as [E|E]; cbn [negb].
      * destruct (N.ltb_spec last cur); [|lia]. f_equal. lia.
      * destruct (N.ltb_spec cur (last + 1)), (N.ltb_spec last cur); try lia.
        -- destruct (N.ltb_spec (cur + 16383) 65536); [|lia]. cbn [obind].
           destruct (N.leb_spec last (cur + 16383)); [|lia]. f_equal.
           replace (cur + 16383 + 65536 - last) with ((cur + 16383 - last) + 65536) by lia. symmetry. apply M. lia.
        -- destruct (N.leb_spec last cur); [|lia]. cbn [obind]. destruct (N.leb_spec 1 (cur - last)); [reflexivity|lia].
Qed.

Theorem C73_missing_frames_checked : forall cur last, cur < 2 ^ 32 -> last < 2 ^ 32 ->
  missing_frames true cur last =
    if cur =? last then Val 16777214
    else if last <? cur then Val (cur - last - 1)
    else if (cur =? 0) && (last =? 16777214) then Val 0
    else if 16777214 <? last then Panic
    else Val (16777214 - last + cur).
Proof.
  intros cur last Hc Hl. unfold missing_frames, add_w, sub_w. change COUNTER_MAX with 16777214.
  destruct (N.eqb_spec cur last) as [E|E]; [reflexivity|].
  destruct (N.eqb_spec last 16777214) as [->|N1].
  - cbn [obind]. rewrite andb_true_r. change (16777214 <? 16777214) with false.
    destruct (N.eqb_spec cur 0) as [->|N0]; [reflexivity|].
    destruct (N.ltb_spec cur 16777214), (N.ltb_spec 16777214 cur); try lia.
    + change (16777214 <=? 16777214) with true. cbn [obind]. destruct (N.ltb_spec (16777214 - 16777214 + cur) (2 ^ 32)); [reflexivity|lia].
    + destruct (N.leb_spec 16777214 cur); [|lia]. cbn [obind]. destruct (N.leb_spec 1 (cur - 16777214)); [reflexivity|lia].
  - rewrite andb_false_r. destruct (N.ltb_spec (last + 1) (2 ^ 32)); cbn [obind].
    + destruct (N.eqb_spec cur (last + 1)) as [E1|E1].
      * destruct (N.ltb_spec last cur); [|lia]. f_equal. lia.
      * destruct (N.ltb_spec cur last), (N.ltb_spec last cur); try lia.
        -- destruct (N.leb_spec last 16777214), (N.ltb_spec 16777214 last); try lia; cbn [obind]; [|reflexivity].
           destruct (N.ltb_spec (16777214 - last + cur) (2 ^ 32)); [reflexivity|]. change (2 ^ 32) with 4294967296 in *. lia.
        -- destruct (N.leb_spec last cur); [|lia]. cbn [obind]. destruct (N.leb_spec 1 (cur - last)); [reflexivity|lia].
    + change (2 ^ 32) with 4294967296 in *. destruct (N.ltb_spec last cur); [lia|]. destruct (N.ltb_spec 16777214 last); [reflexivity|lia].
Qed.

Theorem C73_missing_frames_wrapping : forall cur last, cur < 2 ^ 32 -> last < 2 ^ 32 ->
  missing_frames false cur last = Val (
    if cur =? last then 16777214
    else if last <? cur then cur - last - 1
    else if (cur =? 0) && ((last =? 16777214) || (last =? 2 ^ 32 - 1)) then 0
    else (2 ^ 32 + 16777214 + cur - last) mod 2 ^ 32).
Proof.
  intros cur last Hc Hl. unfold missing_frames, add_w, sub_w. change COUNTER_MAX with 16777214.
  change (2 ^ 32) with 4294967296 in *. change (4294967296 - 1) with 4294967295.
  assert (M : forall x, x < 4294967296 -> (x + 4294967296) mod 4294967296 = x).
  { intros x Hx. rewrite <- (N.mul_1_l 4294967296) at 1. rewrite N.mod_add by lia. apply N.mod_small. exact Hx. }
  destruct (N.eqb_spec cur last) as [E|E]; [reflexivity|].
  assert (L : cur < last -> (let* d := (if last <=? 16777214 then Val (16777214 - last) else Val (16777214 + 4294967296 - last)) in
     (if d + cur <? 4294967296 then Val (d + cur) else Val ((d + cur) mod 4294967296))) =
     Val ((4294967296 + 16777214 + cur - last) mod 4294967296)).
  { intro H. destruct (N.leb_spec last 16777214); cbn [obind].
    - destruct (N.ltb_spec (16777214 - last + cur) 4294967296); [|lia]. f_equal.
      replace (4294967296 + 16777214 + cur - last) with ((16777214 - last + cur) + 4294967296) by lia. symmetry. apply M. lia.
    - replace (4294967296 + 16777214 + cur - last) with (16777214 + 4294967296 - last + cur) by lia.
      destruct (N.ltb_spec (16777214 + 4294967296 - last + cur) 4294967296); [|reflexivity].
      f_equal. symmetry. apply N.mod_small. assumption. }
  assert (G : last < cur -> (let* d := (if last <=? cur then Val (cur - last) else Val (cur + 4294967296 - last)) in
     (if 1 <=? d then Val (d - 1) else Val (d + 4294967296 - 1))) = Val (cur - last - 1)).
  { intro H. destruct (N.leb_spec last cur); [|lia]. cbn [obind]. destruct (N.leb_spec 1 (cur - last)); [reflexivity|lia]. }
  destruct (N.eqb_spec last 16777214) as [N1|N1]; [|destruct (N.ltb_spec (last + 1) 4294967296)]; cbn [obind orb].
  - rewrite andb_true_r. destruct (N.eqb_spec cur 0) as [N0|N0].
    + destruct (N.ltb_spec last cur); [lia|reflexivity].
    + destruct (N.ltb_spec cur last), (N.ltb_spec last cur); try lia; [apply L|apply G]; assumption.
  - destruct (N.eqb_spec last 4294967295); [lia|]. rewrite andb_false_r.
    destruct (N.eqb_spec cur (last + 1)).
    + destruct (N.ltb_spec last cur); [|lia]. f_equal. lia.
    + destruct (N.ltb_spec cur last), (N.ltb_spec last cur); try lia; [apply L|apply G]; assumption.
  - assert (last = 4294967295) by lia. subst last. change ((4294967295 + 1) mod 4294967296) with 0. rewrite N.eqb_refl, andb_true_r.
    destruct (N.eqb_spec cur 0); destruct (N.ltb_spec 4294967295 cur); try lia; [reflexivity|].
    destruct (N.ltb_spec cur 4294967295); [|lia]. apply L. assumption.
Qed.

Print Assumptions C73_missing_packets_checked.
Print Assumptions C73_missing_packets_wrapping.
Print Assumptions C73_missing_frames_checked.
Print Assumptions C73_missing_frames_wrapping.

Example C73_ex : missing_packets true 100 20000 = Panic /\ missing_packets false 100 20000 = Val 62019 /\
  missing_packets true 20000 19000 = Val 999 /\ missing_packets true 50000 50001 = Panic /\
  missing_packets false 50000 50001 = Val 16382 /\ missing_frames true 5 20000000 = Panic /\
  missing_frames false 5 20000000 = Val 4291744515 /\ missing_frames true 20000000 5 = Val 19999994.
Proof. repeat split. Qed.

(* ---- C74 ---- *)
(* the four sequence flag predicates of a decoded packet: exactly one holds, given by bits 16 and 17 *)
Theorem C74_packet_kinds : forall buf p, bytes_ok buf -> packet_decode buf = Val (Ok p) ->
  (is_cont p = true <-> field buf 16 2 = 0) /\ (is_first p = true <-> field buf 16 2 = 1) /\
  (is_last p = true <-> field buf 16 2 = 2) /\ (is_standalone p = true <-> field buf 16 2 = 3) /\
  length (filter (fun b : bool => b) [is_cont p; is_first p; is_last p; is_standalone p]) = 1%nat.
Proof.
  intros buf p Hb E. assert (X := C02_packet_decode buf Hb). rewrite E in X. destruct X as (_ & _ & _ & HH & _).
  unfold is_cont, is_first, is_last, is_standalone. rewrite HH. unfold spec_header. cbn [sequence_flags].
  assert (B := field_bound buf 16 2). change (2 ^ N.of_nat 2) with 4 in B. set (x := field buf 16 2) in *. clearbody x.
  change SEQ_CONTINUATION with 0. change SEQ_FIRST with 1. change SEQ_LAST with 2. change SEQ_UNSEGMENTED with 3.
  rewrite !N.eqb_eq. do 4 (split; [tauto|]).
  assert (C : x = 0 \/ x = 1 \/ x = 2 \/ x = 3) by lia. destruct C as [-> | [-> | [-> | ->]]]; reflexivity.
Qed.

(* a fill frame: a version 1 header whose six vcid bits are all ones; a version 0 frame never is one *)
Theorem C74_frame_fill : forall dat f, bytes_ok dat -> frame_decode dat = Val (Some f) ->
  f_data f = dat /\ f_missing f = 0 /\ f_integrity f = None /\
  (frame_is_fill f = true <-> field dat 0 2 = 1 /\ field dat 10 6 = 63).
Proof.
  intros dat f Hb E. unfold frame_decode in E.
  destruct (Nat.lt_ge_cases (length dat) 6) as [L|L].
  { rewrite (proj2 (C31_vcdu_none_iff dat Hb) (or_introl L)) in E. discriminate. }
  destruct (C31_vcdu_header dat Hb L) as (V0 & V1 & V2).
  assert (B0 := field_bound dat 12 3). change (2 ^ N.of_nat 3) with 8 in B0.
  destruct (N.eq_dec (field dat 0 2) 0) as [Z0|Z0]; [|destruct (N.eq_dec (field dat 0 2) 1) as [Z1|Z1]].
  - rewrite (V0 Z0) in E. cbn [obind] in E. injection E as <-. unfold frame_is_fill. cbn [f_data f_missing f_integrity f_header v_vcid].
    do 3 (split; [reflexivity|]). change VCID_FILL with 63. rewrite N.eqb_eq. split; intros; exfalso; lia.
  - rewrite (V1 Z1) in E. cbn [obind] in E. injection E as <-. unfold frame_is_fill. cbn [f_data f_missing f_integrity f_header v_vcid].
    do 3 (split; [reflexivity|]). change VCID_FILL with 63. rewrite N.eqb_eq. tauto.
  - rewrite V2 in E by lia. discriminate.
Qed.

(* MPDU::decode and the accessors. has_header() only excludes the pointer 2047: it is also true of idle data (2046)
   and of every pointer behind the end of the payload *)
Theorem C74_mpdu : forall data, bytes_ok data ->
  ((length data < 2)%nat -> mpdu_decode data = Val None) /\
  ((2 <= length data)%nat -> exists m, mpdu_decode data = Val (Some m) /\
     mpdu_payload m = Val (skipn 2 data) /\ N.of_nat (mpdu_header_offset m) = field data 5 11 /\
     (mpdu_is_fill m = true <-> field data 5 11 = 2046) /\ (mpdu_has_header m = false <-> field data 5 11 = 2047)).
Proof.
  intros data Hb.
  destruct (C35_mpdu (mkFrame (mkVcdu 0 0 0 0) 0 None ([0; 0; 0; 0; 0; 0] ++ data)) 0 0 [0; 0; 0; 0; 0; 0] data []) as [A B].
  - cbn [f_data]. apply Forall_app. split; [repeat constructor; lia|exact Hb].
  - cbn [f_data]. rewrite app_nil_r. reflexivity.
  - reflexivity.
  - reflexivity.
  - assert (Q : frame_mpdu (mkFrame (mkVcdu 0 0 0 0) 0 None ([0; 0; 0; 0; 0; 0] ++ data)) 0 0 = mpdu_decode data).
    { unfold frame_mpdu. cbn [f_data]. rewrite app_length. unfold VCDU_LEN. cbn [length Nat.add].
      unfold usub. cbn [Nat.leb Nat.sub obind]. unfold slice. cbn [Nat.leb length Nat.sub].
      rewrite app_length. cbn [length Nat.add]. rewrite Nat.leb_refl. cbn [andb obind skipn app].
      replace (S (S (S (S (S (S (length data)))))) - 6)%nat with (length data) by lia.
      rewrite Nat.sub_0_r, firstn_all. reflexivity. }
    rewrite Q in A, B. split; [exact A|]. intro L. destruct (B L) as (m & E & FH & P). exists m. split; [exact E|].
    split; [exact P|]. unfold mpdu_header_offset, mpdu_is_fill, mpdu_has_header. rewrite FH.
    change MPDU_FILL with 2046. change MPDU_NO_HEADER with 2047. split; [apply N2Nat.id|]. split; [apply N.eqb_eq|].
    rewrite negb_false_iff. apply N.eqb_eq.
Qed.

(* Integrity::ok tells the frames whose data the Reed-Solomon stage replaced by decoded data from those it left alone *)
Theorem C74_integrity_ok : forall k c f f' i, rs_job k c f = Val f' -> f_integrity f' = Some i -> f_integrity f = None ->
  exists d, perform k c (f_data f) = Val (Ok (i, d)) /\ f_data f' = (if integrity_ok i then d else f_data f) /\
    (integrity_ok i = true <-> i = IOk \/ i = ICorrected).
Proof.
  intros k c f f' i E HI HN. unfold rs_job in E. destruct (negb _).
  - destruct (perform k c (f_data f)) as [[[i0 d]|e]|]; cbn [obind] in E; try discriminate. injection E as <-. cbn in HI.
    injection HI as ->. exists d. split; [reflexivity|]. cbn. destruct i; cbn; repeat split; try tauto; intros; try discriminate; destruct H; discriminate.
  - injection E as <-. rewrite HN in HI. discriminate.
Qed.

Print Assumptions C74_packet_kinds.
Print Assumptions C74_frame_fill.
Print Assumptions C74_mpdu.
Print Assumptions C74_integrity_ok.

Example C74_ex :
  (exists p, packet_decode [8; 1; 64; 0; 0; 0; 7] = Val (Ok p) /\ is_first p = true) /\
  (exists f, frame_decode [64; 63; 0; 0; 0; 0] = Val (Some f) /\ frame_is_fill f = true) /\
  (exists m, mpdu_decode [7; 254; 1] = Val (Some m) /\ mpdu_is_fill m = true /\ mpdu_has_header m = true).
Proof. repeat split; eexists; vm_compute; repeat split. Qed.
