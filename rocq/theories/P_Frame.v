(* Properties C31 - C35: transfer frames *)
From Verif Require Import Base S_Bits M_Packet M_Bytes M_Sync M_Frame S_Frame L_Base L_Bits S_Packet L_Packet L_Frame.
Open Scope N_scope.

(* ---- C31 ---- *)
Theorem C31_vcdu_header : forall dat, bytes_ok dat -> (6 <= length dat)%nat ->
  (field dat 0 2 = 0 -> vcdu_decode dat =
     Val (Some {| v_version := 0; v_scid := field dat 2 10; v_vcid := field dat 12 3; v_counter := field dat 16 16 |})) /\
  (field dat 0 2 = 1 -> vcdu_decode dat =
     Val (Some {| v_version := 1; v_scid := field dat 2 8; v_vcid := field dat 10 6; v_counter := field dat 16 24 |})) /\
  (2 <= field dat 0 2 -> vcdu_decode dat = Val None).
Proof.
  intros dat Hb Hl. rewrite vcdu_decode_spec by assumption.
  split; [intros ->; reflexivity|]. split; [intros ->; reflexivity|].
  intro H. destruct (field dat 0 2) as [|[p|p|]]; try reflexivity; lia.
Qed.
Print Assumptions C31_vcdu_header.
Theorem C31_vcdu_none_iff : forall dat, bytes_ok dat ->
  (vcdu_decode dat = Val None <-> (length dat < 6)%nat \/ 2 <= field dat 0 2).
Proof.
  intros dat Hb. destruct (Nat.lt_ge_cases (length dat) 6) as [H|H].
  - rewrite vcdu_decode_short by exact H. tauto.
  - destruct (C31_vcdu_header dat Hb H) as (A & B & C).
    assert (D : field dat 0 2 = 0 \/ field dat 0 2 = 1 \/ 2 <= field dat 0 2) by lia.
    destruct D as [D|[D|D]].
    + rewrite (A D). split; [discriminate|lia].
    + rewrite (B D). split; [discriminate|lia].
    + rewrite (C D). split; [tauto|reflexivity].
Qed.
Print Assumptions C31_vcdu_none_iff.
Example C31_ex : vcdu_decode [0x67; 0x50; 0x96; 0x5f; 0x3b; 0x80; 0xff] = Val (Some (mkVcdu 1 157 16 9854779))
  /\ vcdu_decode [0x80; 0; 0; 0; 0; 0] = Val None /\ vcdu_decode [0x0f; 0x5e; 1; 2; 0; 0] = Val (Some (mkVcdu 0 245 7 258)).
Proof. repeat split; reflexivity. Qed.

(* ---- C32 ---- *)
(* The true number of lost frames is [lost 2^24]. What is computed: *)
Theorem C32_missing_frames : forall ovf cur last, cur < 2 ^ 24 -> last < 2 ^ 24 - 1 ->
  missing_frames ovf cur last = Val (lost (2 ^ 24 - 1) cur last).
Proof. intros. apply missing_frames_spec; assumption. Qed.
Print Assumptions C32_missing_frames.
Theorem C32_no_wrap_exact : forall ovf cur last, last < cur -> cur < 2 ^ 24 ->
  missing_frames ovf cur last = Val (lost (2 ^ 24) cur last) /\ missing_frames ovf cur last = Val (cur - last - 1).
Proof.
  intros ovf cur last H Hc. change (2 ^ 24) with 16777216 in *.
  assert (E : missing_frames ovf cur last = Val (cur - last - 1)).
  { rewrite C32_missing_frames by (change (2 ^ 24) with 16777216; lia). f_equal. unfold lost.
    change (2 ^ 24 - 1)%Z with 16777215%Z. rewrite Z.mod_small; lia. }
  split; [|exact E]. rewrite E. f_equal. unfold lost. change (2 ^ 24)%Z with 16777216%Z. rewrite Z.mod_small; lia.
Qed.
Print Assumptions C32_no_wrap_exact.
(* every gap across the roll-over is undercounted by one *)
Theorem C32_wrap_undercounts_refuted : forall ovf cur last, cur < last -> last < 2 ^ 24 - 1 ->
  exists m, missing_frames ovf cur last = Val m /\ lost (2 ^ 24) cur last = m + 1.
Proof.
  intros ovf cur last H Hl. change (2 ^ 24) with 16777216 in *. eexists. split.
  - apply C32_missing_frames; change (2 ^ 24) with 16777216; lia.
  - unfold lost. change (2 ^ 24 - 1)%Z with 16777215%Z. change (2 ^ 24)%Z with 16777216%Z.
    rewrite <- (Z_mod_plus_full (Z.of_N cur - Z.of_N last - 1) 1 16777216), <- (Z_mod_plus_full (Z.of_N cur - Z.of_N last - 1) 1 16777215).
    rewrite !Z.mod_small; lia.
Qed.
Print Assumptions C32_wrap_undercounts_refuted.
(* the regular successor of the counter value 0xffffff is 0: with overflow checks that panics, without
   them it reports 4294967295 missing frames; other successors report one too few *)
Theorem C32_rollover_refuted : forall ovf cur, cur < 2 ^ 24 ->
  missing_frames ovf cur (2 ^ 24 - 1) =
    if cur =? 2 ^ 24 - 1 then Val (2 ^ 24 - 2)
    else if ovf then Panic else Val (if cur =? 0 then 2 ^ 32 - 1 else cur - 1).
Proof. intros. apply missing_frames_max. assumption. Qed.
Print Assumptions C32_rollover_refuted.
Example C32_ex : missing_frames true 5 16777213 = Val 6 /\ lost (2 ^ 24) 5 16777213 = 7 /\
  missing_frames true 0 16777215 = Panic /\ missing_frames false 0 16777215 = Val 4294967295 /\ lost (2 ^ 24) 0 16777215 = 0.
Proof. repeat split; reflexivity. Qed.

(* ---- C33, C34 ---- *)
Lemma previous_last : forall v fs, previous_counter v fs = last_counter v fs.
Proof.
  intros v fs. induction fs as [|f fs IH] using rev_ind; [reflexivity|].
  rewrite last_counter_snoc. unfold vcid_of, counter_of.
  transitivity (if v_vcid (f_header f) =? v then Some (v_counter (f_header f)) else previous_counter v fs).
  - clear IH. induction fs as [|g fs IH]; [cbn; destruct (v_vcid (f_header f) =? v); reflexivity|].
    cbn [app previous_counter]. rewrite IH. destruct (v_vcid (f_header f) =? v); reflexivity.
  - rewrite IH. reflexivity.
Qed.
(* Everything frame_decoder yields, for every sequence of CADUs *)
Theorem C33_frames : forall ovf cadus frames,
  yields (fdec_next ovf) (frame_decoder cadus) frames ->
  (forall i f, nth_error frames i = Some f -> exists c,
     nth_error cadus i = Some c /\
     f_data f = bl_data c /\ vcdu_decode (bl_data c) = Val (Some (f_header f)) /\ f_integrity f = None /\
     (v_vcid (f_header f) = 63 -> f_missing f = 0) /\
     (v_vcid (f_header f) <> 63 ->
        match previous_counter (v_vcid (f_header f)) (firstn i frames) with
        | None => f_missing f = 0
        | Some last => missing_frames ovf (v_counter (f_header f)) last = Val (f_missing f)
        end)) /\
  (length frames = length cadus \/
   exists c, nth_error cadus (length frames) = Some c /\ vcdu_decode (bl_data c) = Val None).
Proof.
  intros ovf cadus frames Y.
  apply (decoded_iff ovf cadus [] [] frames) in Y; [|intro v; reflexivity].
  assert (K : forall before cadus frames, decoded ovf before cadus frames ->
    (forall i f, nth_error frames i = Some f -> exists c,
     nth_error cadus i = Some c /\ frame_of c f /\ missing_rule ovf (before ++ firstn i frames) f) /\
   (length frames = length cadus \/
     exists c, nth_error cadus (length frames) = Some c /\ vcdu_decode (bl_data c) = Val None)).
  { clear. induction 1 as [before|before c rest E|before c rest f fs F MR D [IH1 IH2]].
    - split; [|left; reflexivity]. intros i f E. destruct i; discriminate.
    - split; [intros i f X; destruct i; discriminate|]. right. exists c. split; [reflexivity|exact E].
    - split.
      + intros i g E. destruct i as [|i].
        * cbn in E. injection E as <-. exists c. split; [reflexivity|]. split; [exact F|]. cbn [firstn]. rewrite app_nil_r. exact MR.
        * cbn [nth_error] in *. destruct (IH1 i g E) as (c' & A & B & C). exists c'. split; [exact A|]. split; [exact B|].
          cbn [firstn]. rewrite <- app_assoc in C. exact C.
      + cbn [length nth_error]. destruct IH2 as [IH2|IH2]; [left; congruence|right; exact IH2]. }
  destruct (K _ _ _ Y) as [K1 K2]. split; [|exact K2].
  intros i f E. destruct (K1 i f E) as (c & A & (F1 & F2 & F3) & MR). exists c.
  cbn [app] in MR. unfold missing_rule in MR. rewrite <- previous_last in MR. unfold vcid_of, counter_of in MR.
  repeat (split; [assumption|]).
  destruct (N.eqb_spec (v_vcid (f_header f)) 63); split; intro; try assumption; contradiction.
Qed.
Print Assumptions C33_frames.
(* It completes for every sequence of CADUs in a build without overflow checks, and in a build with them
   unless a frame counter reaches 0xffffff (C32_rollover_refuted says what happens then) *)
Theorem C33_total : forall ovf cadus, Forall (fun c => bytes_ok (bl_data c)) cadus ->
  (ovf = true -> Forall (fun c => forall h, vcdu_decode (bl_data c) = Val (Some h) ->
      v_counter h <> 2 ^ 24 - 1 \/ v_vcid h = 63) cadus) ->
  exists frames, yields (fdec_next ovf) (frame_decoder cadus) frames.
Proof.
  intros ovf cadus Hb HO. destruct (decoded_total ovf cadus [] Hb) as [frames D].
  - intros v l E. discriminate.
  - exact HO.
  - exists frames. apply (decoded_iff ovf cadus [] [] frames); [intro v; reflexivity|exact D].
Qed.
Print Assumptions C33_total.
Definition cadu (vcid counter : N) : block := mkBlock 0 (mkLoc 1 0) [0x40; vcid; 0; 0; counter; 0; 7; 7].
Example C33_ex : exists fs, yields (fdec_next true) (frame_decoder [cadu 1 5; cadu 2 9; cadu 1 8; cadu 63 1; cadu 63 9; cadu 2 10]) fs /\
  map f_missing fs = [0; 0; 2; 0; 0; 0].
Proof. eexists. split; [apply (run_yields _ _ _ 20); vm_compute; reflexivity|reflexivity]. Qed.

(* C34: nothing after an undecodable CADU is decoded, whatever follows *)
Theorem C34_stops_at_undecodable_refuted : forall ovf good bad rest frames,
  vcdu_decode (bl_data bad) = Val None ->
  Forall (fun c => vcdu_decode (bl_data c) <> Val None) good ->
  (yields (fdec_next ovf) (frame_decoder (good ++ bad :: rest)) frames <->
   yields (fdec_next ovf) (frame_decoder good) frames).
Proof.
  intros ovf good bad rest frames HB HG. unfold frame_decoder.
  rewrite !(decoded_iff ovf _ [] [] frames) by (intro v; reflexivity).
  generalize (@nil frame) as before. revert frames. induction HG as [|c good Hc HG IH]; intros frames before.
  - split; intro H; inversion H; subst; try constructor; try assumption.
    match goal with X : frame_of _ _ |- _ => destruct X as (_ & X & _); congruence end.
  - cbn [app]. split; intro H; inversion H; subst; try congruence; (apply dec_frame; [assumption..|apply IH; assumption]).
Qed.
Print Assumptions C34_stops_at_undecodable_refuted.
Theorem C34_stops_exactly_there : forall ovf cadus frames,
  yields (fdec_next ovf) (frame_decoder cadus) frames ->
  Forall (fun c => vcdu_decode (bl_data c) <> Val None) cadus -> length frames = length cadus.
Proof.
  intros ovf cadus frames Y HG. destruct (C33_frames _ _ _ Y) as [_ [H|(c & E & D)]]; [exact H|].
  apply nth_error_In in E. rewrite Forall_forall in HG. exfalso. exact (HG c E D).
Qed.
Print Assumptions C34_stops_exactly_there.
Example C34_ex : exists fs, yields (fdec_next true) (frame_decoder [cadu 1 5; mkBlock 0 (mkLoc 1 0) [0xff; 0; 0; 0; 0; 0]; cadu 1 6]) fs /\ length fs = 1%nat.
Proof. eexists. split; [apply (run_yields _ _ _ 20); vm_compute; reflexivity|reflexivity]. Qed.

(* ---- C35 ---- *)
Theorem C35_mpdu : forall f izone trailer pre zone post, bytes_ok (f_data f) ->
  f_data f = pre ++ zone ++ post -> length pre = (6 + izone)%nat -> length post = trailer ->
  ((length zone < 2)%nat -> frame_mpdu f izone trailer = Val None) /\
  ((2 <= length zone)%nat -> exists m, frame_mpdu f izone trailer = Val (Some m) /\
     m_first_header m = field zone 5 11 /\ mpdu_payload m = Val (skipn 2 zone)).
Proof.
  intros f izone trailer pre zone post Hb E Lp Lq. rewrite frame_mpdu_spec by exact Hb.
  assert (L : length (f_data f) = (6 + izone + length zone + trailer)%nat) by (rewrite E, !app_length; lia).
  replace (6 + izone + trailer <=? length (f_data f))%nat with true by (symmetry; apply Nat.leb_le; lia).
  assert (Z : firstn (length (f_data f) - trailer - (6 + izone)) (skipn (6 + izone) (f_data f)) = zone).
  { rewrite L, E, <- Lp, skipn_app_exact. replace (length pre + length zone + trailer - trailer - length pre)%nat with (length zone) by lia. apply firstn_app_exact. }
  rewrite Z. cbv zeta. split; intro H.
  - replace (length zone <? 2)%nat with true by (symmetry; apply Nat.ltb_lt; exact H). reflexivity.
  - replace (length zone <? 2)%nat with false by (symmetry; apply Nat.ltb_ge; exact H).
    eexists. split; [reflexivity|]. cbn [m_first_header]. split; [reflexivity|].
    unfold mpdu_payload. cbn [m_data]. replace (2 <=? length zone)%nat with true by (symmetry; apply Nat.leb_le; exact H).
    apply slice_from_ok. exact H.
Qed.
Print Assumptions C35_mpdu.
Theorem C35_mpdu_panics_iff : forall f izone trailer, bytes_ok (f_data f) ->
  (frame_mpdu f izone trailer = Panic <-> (length (f_data f) < 6 + izone + trailer)%nat).
Proof.
  intros f izone trailer Hb. rewrite frame_mpdu_spec by exact Hb.
  destruct (6 + izone + trailer <=? length (f_data f))%nat eqn:E.
  - apply Nat.leb_le in E. split; [|lia]. cbv zeta. destruct (_ <? 2)%nat; discriminate.
  - apply Nat.leb_gt in E. split; [intros _; lia|reflexivity].
Qed.
Print Assumptions C35_mpdu_panics_iff.
Example C35_ex : frame_mpdu (mkFrame (mkVcdu 1 1 1 1) 0 None [1; 2; 3; 4; 5; 6; 99; 0x0f; 0xff; 10; 11; 77; 78]) 1 2
  = Val (Some (mkMpdu 2047 [0x0f; 0xff; 10; 11])).
Proof. reflexivity. Qed.
