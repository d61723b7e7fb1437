(* Lemmas for C83 *)
From Verif Require Import Base S_Bits S_Packet S_Pn S_Sync S_Frame S_FramePackets S_ReedSolomon S_Pipeline S_Loss S_Live S_Pause S_FrameLive S_Cut
  M_Reader M_Packet M_Bytes M_Sync M_Pn M_Frame M_FramePackets M_ReedSolomon M_RsPipeline M_Live M_Pipeline M_Pause M_FrameLive M_Cut
  L_Base L_Bits L_Packet L_Pn L_Frame L_FramePackets L_FramePackets2 L_ReedSolomon L_RsPipeline L_Pipeline L_Sync L_SyncBits L_SyncRun L_SyncIter L_SyncSafe L_SyncFail L_Loss
  L_Live L_Pause L_FrameLive L_SyncTwin
  P_Pn P_Sync P_Frame P_FramePackets P_ReedSolomon P_RsPipeline P_Pipeline P_Loss P_Causal P_FrameLive.
Open Scope nat_scope.

(* ---- the marker that comes next ---- *)
Lemma marker_next : forall before gap rest, no_more ASM gap 0 -> earliest ASM (before ++ gap ++ bits ASM ++ rest) (length before) (length (before ++ gap)).
Proof.
  intros before gap rest HG. split; [rewrite app_length; lia|]. split.
  - unfold occurs. rewrite app_assoc, skipn_app_exact, <- bits_length. apply firstn_app_exact.
  - intros q Hq X. rewrite app_length in Hq. rewrite occurs_shift in X by lia. rewrite app_assoc in X.
    rewrite occurs_app in X by (rewrite app_length, bits_length; lia). exact (ASM_junk gap (q - length before) ltac:(lia) HG X).
Qed.
Definition air_ok (len : nat) (gb : list bool * list N) : Prop := no_more ASM (fst gb) 0 /\ bytes_ok (snd gb) /\ length (snd gb) = len.
Lemma air_step : forall before gap blk air part,
  before ++ air_bits ((gap, blk) :: air) ++ part = before ++ gap ++ bits ASM ++ bits blk ++ air_bits air ++ part /\
  before ++ gap ++ bits ASM ++ bits blk ++ air_bits air ++ part = (before ++ gap ++ bits ASM ++ bits blk) ++ air_bits air ++ part.
Proof. intros. split; unfold air_bits; cbn [flat_map fst snd]; rewrite <- !app_assoc; reflexivity. Qed.

Lemma air_whole : forall len part, unfinished len part -> forall air, Forall (air_ok len) air ->
  forall before last, exists blocks, whole_blocks ASM len (before ++ air_bits air ++ part) (length before) last blocks /\ map bl_data blocks = map snd air.
Proof.
  intros len part UF. induction air as [|[gap blk] air IH]; intros HB before last.
  - exists []. split; [|reflexivity]. cbn [air_bits flat_map app]. destruct UF as [NM|(gap & rest & -> & HG & HL)].
    + apply whole_end. intros q Hq X. rewrite occurs_shift in X by exact Hq. exact (NM _ (Nat.le_0_l _) X).
    + eapply whole_short; [apply marker_next; exact HG|]. rewrite !app_length, bits_length. lia.
  - inversion HB as [|? ? (HG & Bo & Bl) HB']; subst. cbn [fst snd] in *. destruct (air_step before gap blk air part) as [-> E2].
    set (d := length (before ++ gap) + 8 * length ASM). destruct (IH HB' (before ++ gap ++ bits ASM ++ bits blk) (l_offset (loc_at d))) as (blocks & W & M).
    rewrite <- E2 in W. eexists. split; [eapply whole_block with (p := length (before ++ gap)) (d := d) (data := blk)|].
    + apply marker_next. exact HG.
    + reflexivity.
    + unfold d. rewrite !app_length, !bits_length. lia.
    + exact Bo.
    + rewrite app_assoc, skipn_app_ge by (unfold d; lia). replace (d - length (before ++ gap)) with (length (bits ASM)) by (unfold d; rewrite bits_length; lia).
      rewrite skipn_app_exact, <- bits_length. symmetry. apply firstn_app_exact.
    + replace (d + 8 * length blk) with (length (before ++ gap ++ bits ASM ++ bits blk)) by (unfold d; rewrite !app_length, !bits_length; lia). exact W.
    + cbn [map bl_data snd]. congruence.
Qed.

Lemma air_cut : forall len part, unfinished len part -> forall air, Forall (air_ok len) air ->
  forall before last, exists blocks extra, sync_run ASM len (before ++ air_bits air ++ part) (length before) last (map Ok blocks ++ extra) /\ map bl_data blocks = map snd air /\
    (extra = [] \/ extra = [Err (Io UnexpectedEof)] \/
     exists b gap rest, extra = [Ok b] /\ part = gap ++ bits ASM ++ rest /\ no_more ASM gap 0 /\ length (before ++ air_bits air ++ gap) mod 8 = 0 /\
       bytes_ok (bl_data b) /\ length (bl_data b) = len /\ bits (bl_data b) = rest ++ repeat false (8 * len - length rest)).
Proof.
  intros len part UF. induction air as [|[gap blk] air IH]; intros HB before last.
  - exists []. cbn [air_bits flat_map app map]. destruct UF as [NM|(gap & rest & -> & HG & HL)].
    + exists []. split; [|auto]. apply run_end. intros q Hq X. rewrite occurs_shift in X by exact Hq. exact (NM _ (Nat.le_0_l _) X).
    + set (d := length (before ++ gap) + 8 * length ASM).
      assert (LB : length (before ++ gap ++ bits ASM ++ rest) = d + length rest) by (unfold d; rewrite !app_length, bits_length; lia).
      assert (M8 : d mod 8 = length (before ++ gap) mod 8).
      { unfold d. rewrite (Nat.mul_comm 8). apply Nat.mod_add. lia. }
      assert (SK : skipn d (before ++ gap ++ bits ASM ++ rest) = rest).
      { rewrite app_assoc, skipn_app_ge by (unfold d; lia). replace (d - length (before ++ gap)) with (length (bits ASM)) by (unfold d; rewrite bits_length; lia). apply skipn_app_exact. }
      destruct (Nat.eq_dec (d mod 8) 0) as [Z|Z].
      * destruct (of_bits len (rest ++ repeat false (8 * len - length rest))) as (data & Hd & Ed).
        { rewrite app_length, repeat_length. lia. }
        assert (LD : length data = len). { assert (X := bits_length data). rewrite Ed, app_length, repeat_length in X. lia. }
        eexists. split; [eapply run_truncated_aligned with (data := data); [apply marker_next; exact HG|reflexivity|fold d; lia|exact Z|exact Hd|exact LD|]|].
        { fold d. rewrite SK, Ed. do 2 f_equal. lia. }
        split; [reflexivity|]. right. right. eexists. exists gap, rest. split; [reflexivity|]. split; [reflexivity|]. split; [exact HG|]. cbn [bl_data].
        split; [rewrite <- M8; exact Z|]. auto.
      * eexists. split; [eapply run_truncated_shifted; [apply marker_next; exact HG|reflexivity|fold d; lia|exact Z]|]. auto.
  - inversion HB as [|? ? (HG & Bo & Bl) HB']; subst. cbn [fst snd] in *. destruct (air_step before gap blk air part) as [-> E2].
    set (d := length (before ++ gap) + 8 * length ASM). destruct (IH HB' (before ++ gap ++ bits ASM ++ bits blk) (l_offset (loc_at d))) as (blocks & extra & W & M & X).
    rewrite <- E2 in W. exists (mkBlock (if last =? 0 then 0 else l_offset (loc_at d) - last) (loc_at d) blk :: blocks), extra. split; [|split; [cbn; congruence|]].
    + cbn [map app]. eapply run_block with (p := length (before ++ gap)) (d := d) (data := blk).
      * apply marker_next. exact HG.
      * reflexivity.
      * unfold d. rewrite !app_length, !bits_length. lia.
      * exact Bo.
      * rewrite app_assoc, skipn_app_ge by (unfold d; lia). replace (d - length (before ++ gap)) with (length (bits ASM)) by (unfold d; rewrite bits_length; lia).
        rewrite skipn_app_exact, <- bits_length. symmetry. apply firstn_app_exact.
      * replace (d + 8 * length blk) with (length (before ++ gap ++ bits ASM ++ bits blk)) by (unfold d; rewrite !app_length, !bits_length; lia). exact W.
    + destruct X as [X|[X|(b & g2 & rest & X1 & X2 & X3 & X4 & X5)]]; [auto|auto|]. right. right. exists b, g2, rest. repeat (split; [assumption|]). split; [|exact X5].
      replace (length (before ++ air_bits ((gap, blk) :: air) ++ g2)) with (length ((before ++ gap ++ bits ASM ++ bits blk) ++ air_bits air ++ g2)); [exact X4|].
      unfold air_bits. cbn [flat_map fst snd]. rewrite !app_length. lia.
Qed.

(* ---- cutting a stream anywhere ---- *)
Lemma no_more_prefix : forall B n, no_more ASM B 0 -> no_more ASM (firstn n B) 0.
Proof.
  intros B n NM q Hq X. apply (NM q Hq). assert (Y := X). apply occurs_bound in Y; [|discriminate].
  rewrite <- (firstn_skipn n B). apply occurs_app; [exact Y|exact X].
Qed.
Lemma no_more_cut_marker : forall gap n, no_more ASM gap 0 -> n < 32 -> no_more ASM (gap ++ firstn n (bits ASM)) 0.
Proof.
  intros gap n NM Hn q Hq X. assert (Y := X). apply occurs_bound in Y; [|discriminate]. change (8 * length ASM) with 32 in Y.
  rewrite app_length, firstn_length in Y. change (length (bits ASM)) with 32 in Y.
  assert (Z : occurs ASM (gap ++ bits ASM) q).
  { rewrite <- (firstn_skipn n (bits ASM)), app_assoc. apply occurs_app; [change (8 * length ASM) with 32; rewrite app_length, firstn_length; change (length (bits ASM)) with 32; lia|exact X]. }
  exact (ASM_junk gap q ltac:(lia) NM Z).
Qed.
Lemma cut_air : forall len tail, no_more ASM tail 0 -> forall air, Forall (air_ok len) air -> forall n,
  exists air1 part, firstn n (air_bits air ++ tail) = air_bits air1 ++ part /\ (exists air2, air = air1 ++ air2) /\ unfinished len part.
Proof.
  intros len tail NT. induction air as [|[gap blk] air IH]; intros HB n.
  - exists [], (firstn n tail). split; [reflexivity|]. split; [exists []; reflexivity|]. left. apply no_more_prefix. exact NT.
  - inversion HB as [|? ? (HG & Bo & Bl) HB']; subst. cbn [fst snd] in *.
    assert (E : air_bits ((gap, blk) :: air) ++ tail = (gap ++ bits ASM ++ bits blk) ++ air_bits air ++ tail) by (unfold air_bits; cbn [flat_map fst snd]; rewrite <- !app_assoc; reflexivity).
    rewrite E. destruct (Nat.le_gt_cases (length gap + 32 + 8 * length blk) n) as [L|L].
    + destruct (IH HB' (n - (length gap + 32 + 8 * length blk))) as (air1 & part & E1 & (air2 & E2) & U).
      exists ((gap, blk) :: air1), part. split; [|split; [exists air2; cbn; congruence|exact U]].
      rewrite firstn_app, firstn_all2 by (rewrite !app_length, !bits_length; change (length ASM) with 4; lia).
      replace (n - length (gap ++ bits ASM ++ bits blk)) with (n - (length gap + 32 + 8 * length blk)) by (rewrite !app_length, !bits_length; change (length ASM) with 4; lia).
      rewrite E1. unfold air_bits. cbn [flat_map fst snd]. rewrite <- !app_assoc. reflexivity.
    + exists [], (firstn n (gap ++ bits ASM ++ bits blk)). rewrite firstn_app_le by (rewrite !app_length, !bits_length; change (length ASM) with 4; lia).
      split; [reflexivity|]. split; [exists ((gap, blk) :: air); reflexivity|].
      destruct (Nat.le_gt_cases n (length gap)) as [L1|L1].
      * left. rewrite firstn_app_le by exact L1. apply no_more_prefix. exact HG.
      * rewrite firstn_app, (firstn_all2 gap) by lia. destruct (Nat.le_gt_cases n (length gap + 31)) as [L2|L2].
        -- left. rewrite firstn_app_le by (change (length (bits ASM)) with 32; lia). apply no_more_cut_marker; [exact HG|lia].
        -- right. exists gap, (firstn (n - length gap - 32) (bits blk)). split; [|split; [exact HG|]].
           ++ f_equal. rewrite firstn_app, (firstn_all2 (bits ASM)) by (change (length (bits ASM)) with 32; lia). reflexivity.
           ++ rewrite firstn_length, bits_length. lia.
Qed.

(* ---- the frames and packets of the units found ---- *)
Section Link.
Variables (izone trailer : nat) (ovf : bool) (k : codec) (p : pipeline) (ws : N -> list wire_packet).
Definition done_by (o : option rs_opts) (f f' : frame) : Prop := match o with None => f' = f | Some o => rs_job k (rs_of_opts o) f = Val f' end.
Definition coded (items : list block) : list block := if pl_derandomize p then map derandomize_cadu items else items.

Lemma link_frames : forall us c a e, (pl_rs p <> None -> codec_ok k) -> link izone trailer k p ws us c a e ->
  forall items, map bl_data items = map s_block (map fst (filter turned_up us)) ->
  exists fs out cs, yields (fdec_next ovf) (frame_decoder (coded items)) fs /\ length fs = length items /\ Forall2 (done_by (pl_rs p)) fs out /\
    received izone trailer ws us a out cs /\ yields (fpiter_next izone trailer) (packet_decoder out) (concat cs) /\ frames_ok izone trailer out.
Proof.
  intros us c a e HK (HW & HT & HR & HL & HTr & HRoom & HS) items EI.
  assert (HV : Forall (fun z => (s_vcid (fst z) < 64)%N) us) by (eapply Forall_impl; [|exact HTr]; intros u X; apply X).
  set (e' := fun v => if (v <? 63)%N then e v else a v).
  assert (HS' : forall v, (v <> 63)%N -> sends izone trailer v (ws v) (c v) (a v) (map s_frame (map fst (channel v us))) (e' v)).
  { intros v Hv. unfold e'. destruct (N.ltb_spec v 63); [apply HS; assumption|].
    replace (channel v us) with (@nil (sent * fate)); [constructor|]. symmetry. apply filter_none. intros z I.
    rewrite Forall_forall in HV. specialize (HV z I). unfold on_channel. lia. }
  assert (HFo : Forall (fun z => reaches k p z /\ turned_up z = true) (filter turned_up us)).
  { apply Forall_forall. intros z I. apply filter_In in I. destruct I as [I F]. rewrite Forall_forall in HTr. auto. }
  set (blocks := coded items).
  assert (UB : Forall2 (z_block k p) (filter turned_up us) blocks).
  { unfold blocks, coded. clear -EI HFo. revert items EI. induction HFo as [|z zs [[V X] F] _ IH]; intros items EI.
    - destruct items; [|discriminate]. destruct (pl_derandomize p); constructor.
    - destruct X as [X|(cw & Hc & H2 & H3 & H4 & H5)]; [unfold turned_up in F; rewrite X in F; discriminate|].
      destruct items as [|b items]; [discriminate|]. cbn [map] in EI. injection EI as Eb EI. specialize (IH items EI).
      destruct (pl_derandomize p).
      + constructor; [|exact IH]. unfold z_block, derandomize_cadu. cbn [bl_data]. rewrite Eb.
        assert (DR := derandomized cw (s_block (fst z)) Hc H4). rewrite DR. destruct H4 as (_ & LL & _).
        repeat (split; [assumption || congruence|]). exact H5.
      + constructor; [|exact IH]. unfold z_block. rewrite Eb, H4. rewrite H4 in H3. auto. }
  destruct (decode_lossy izone trailer ovf k p ws HW us blocks UB [] c a e' (fun _ => false) (fun _ => 0%N) HS') as (fs & DD & FF & MM); [intros; reflexivity|].
  assert (Y2 : yields (fdec_next ovf) (frame_decoder blocks) fs) by (apply (decoded_iff ovf blocks [] [] fs); [intro; reflexivity|exact DD]).
  assert (FO : Forall (fun z => turned_up z = true) (filter turned_up us)) by (eapply Forall_impl; [|exact HFo]; intros z X; apply X).
  assert (JOBS : exists out, Forall2 (done_by (pl_rs p)) fs out /\ Forall2 (z_out p) (filter turned_up us) out /\ Forall2 same_head fs out).
  { destruct (pl_rs p) as [o|] eqn:ER.
    - specialize (HK ltac:(discriminate)). clear -FF FO ER HR HK. induction FF as [|z f zs fs U _ IH]; [exists []; repeat split; constructor|]. inversion FO; subst.
      destruct IH as (out & A & B & C); [assumption|].
      destruct (z_rs k p o ER HK (proj1 HR) (proj2 HR) z f) as (f' & D & E1 & E2); try assumption. exists (f' :: out). repeat split; constructor; assumption.
    - exists fs. split; [clear; induction fs; constructor; [reflexivity|assumption]|]. split.
      + clear -FF FO ER. induction FF; inversion FO; subst; constructor; [eapply z_no_rs; eassumption|auto].
      + clear; induction fs; constructor; [split; reflexivity|assumption]. }
  destruct JOBS as (out & J1 & OU & SH). exists fs, out.
  assert (MO : forall v, (v < 63)%N -> map f_missing (filter (is_chan v) out) = gaps_of false 0 (map snd (channel v us))).
  { intros v Hv. rewrite <- (MM v) by lia. clear -SH. induction SH as [|f f' fs out [A B] _ IH]; [reflexivity|]. cbn [filter].
    replace (is_chan v f') with (is_chan v f) by (unfold is_chan, chan; rewrite A; reflexivity). destruct (is_chan v f); [cbn [map]; congruence|exact IH]. }
  assert (FOK := z_frames_ok izone trailer p ws HW us out c a e' HV OU HS' HL).
  destruct (C37_channels_independent izone trailer out FOK) as (cs & LC & Y & CH).
  exists cs. split; [exact Y2|]. split.
  { assert (X1 := Forall2_length _ _ _ _ _ FF). assert (X2 := Forall2_length _ _ _ _ _ UB). unfold blocks, coded in X2. destruct (pl_derandomize p); [rewrite map_length in X2|]; congruence. }
  split; [exact J1|]. split; [|split; [exact Y|exact FOK]].
  split. { clear -OU. induction OU as [|u f us' fs (V & _) _ IH]; [reflexivity|]. cbn. congruence. }
  split. { clear -OU. induction OU as [|u f us' fs (_ & M & _) _ IH]; constructor; assumption. }
  split; [exact MO|]. split; [exact LC|]. intros v Hv.
  destruct (z_channel p v us out ltac:(lia) OU) as [A B].
  eapply yields_det; [apply CH|]. apply single_iff with (v := v).
  - unfold frames_ok in *. apply Forall_forall. intros f I. apply filter_In in I. rewrite Forall_forall in FOK. apply FOK, I.
  - exact B.
  - apply loss_from_start; [apply HW|apply HT|]. change false with (false && (0 <? 0)%N) at 2.
    eapply (lossy_of_sends izone trailer ovf p ws HW v Hv); [|apply HS; exact Hv|exact A|apply MO; exact Hv].
    apply Forall_forall. intros z I. apply filter_In in I. destruct I as [I O]. unfold on_channel in O. apply N.eqb_eq in O.
    split; [exact O|]. rewrite Forall_forall in HRoom. apply HRoom; [exact I|lia].
Qed.

(* the first units of a link are a link *)
Lemma sends_prefix : forall v pk0 l1 l2 c a e, sends izone trailer v pk0 c a (l1 ++ l2) e -> sends izone trailer v pk0 c a l1 (a + list_sum (map (room izone trailer) l1)).
Proof.
  intros v pk0 l1 l2. induction l1 as [|d l1 IH]; intros c a e H; [cbn; rewrite Nat.add_0_r; constructor|]. cbn [app] in H. inversion H as [|? ? n scid sg iz spare ptr tr ? ? H1 H2 H3 H4 H5 H6 H7 H8 H9 H10 H11 H12]; subst.
  apply IH in H12. econstructor; try eassumption; try reflexivity.
  match goal with X : sends _ _ _ _ _ _ l1 ?u |- sends _ _ _ _ _ _ l1 ?w => replace w with u; [exact X|] end.
  cbn [map]. set (fr := aos_frame _ _ _ _ _ _ _ _ _). assert (LR : room (length iz) (length tr) fr = n).
  { unfold room, fr, aos_frame. rewrite !app_length, aos_header_length, firstn_length, skipn_length. cbn [length]. lia. }
  unfold list_sum. cbn [fold_right]. rewrite LR. lia.
Qed.
Lemma link_prefix : forall us1 us2 c a e, link izone trailer k p ws (us1 ++ us2) c a e -> exists e1, link izone trailer k p ws us1 c a e1.
Proof.
  intros us1 us2 c a e (HW & HT & HR & HL & HTr & HRoom & HS). apply Forall_app in HTr, HRoom.
  exists (fun v => a v + list_sum (map (room izone trailer) (map s_frame (map fst (channel v us1))))).
  repeat (split; [tauto|]). intros v L. specialize (HS v L). unfold channel in HS. rewrite filter_app, !map_app in HS. eapply sends_prefix. exact HS.
Qed.
Lemma found_prefix : forall (us : list (sent * fate)) n, n <= length (filter turned_up us) -> exists us1 us2, us = us1 ++ us2 /\ filter turned_up us1 = firstn n (filter turned_up us).
Proof.
  induction us as [|z us IH]; intros n Hn; cbn [filter] in *.
  - exists [], []. split; [reflexivity|]. rewrite firstn_nil. reflexivity.
  - destruct (turned_up z) eqn:T.
    + destruct n as [|n]; [exists [], (z :: us); split; reflexivity|]. cbn [length] in Hn. destruct (IH n ltac:(lia)) as (us1 & us2 & -> & E).
      exists (z :: us1), us2. split; [reflexivity|]. cbn [filter firstn]. rewrite T, E. reflexivity.
    + destruct (IH n Hn) as (us1 & us2 & -> & E). exists (z :: us1), us2. split; [reflexivity|]. cbn [filter]. rewrite T. exact E.
Qed.

(* what has been received when only some of the frames are through *)
Lemma link_received : forall us c a e, (pl_rs p <> None -> codec_ok k) -> link izone trailer k p ws us c a e ->
  forall items fs, map bl_data items = map s_block (map fst (filter turned_up us)) -> yields (fdec_next ovf) (frame_decoder (coded items)) fs ->
  forall n seen, n <= length fs -> Forall2 (done_by (pl_rs p)) (firstn n fs) seen ->
  exists us1 us2 cs, us = us1 ++ us2 /\ filter turned_up us1 = firstn n (filter turned_up us) /\ received izone trailer ws us1 a seen cs /\
    yields (fpiter_next izone trailer) (packet_decoder seen) (concat cs).
Proof.
  intros us c a e HK HL items fs EI Y n seen Hn DB.
  assert (LI : length items = length (filter turned_up us)) by (rewrite <- (map_length bl_data), EI, !map_length; reflexivity).
  destruct (link_frames us c a e HK HL items EI) as (fs0 & _ & _ & Y0 & L0 & _). assert (fs0 = fs) by (eapply yields_det; eassumption). subst fs0.
  destruct (found_prefix us n ltac:(lia)) as (us1 & us2 & E & F1). subst us. destruct (link_prefix us1 us2 c a e HL) as (e1 & HL1).
  assert (EI1 : map bl_data (firstn n items) = map s_block (map fst (filter turned_up us1))).
  { rewrite F1, <- !firstn_map, EI. reflexivity. }
  destruct (link_frames us1 c a e1 HK HL1 _ EI1) as (fs1 & out1 & cs & Y1 & L1 & D1 & R1 & P1 & _).
  assert (EC : coded items = coded (firstn n items) ++ coded (skipn n items)).
  { unfold coded. destruct (pl_derandomize p); [rewrite <- map_app|]; rewrite firstn_skipn; reflexivity. }
  rewrite EC in Y. destruct (C66_frames_from_cadus _ _ _ _ _ Y1 Y) as [more EF].
  assert (fs1 = firstn n fs). { rewrite EF. rewrite firstn_app, firstn_all2 by (rewrite L1, firstn_length; lia). replace (n - length fs1) with 0 by (rewrite L1, firstn_length; lia). cbn. rewrite app_nil_r. reflexivity. }
  subst fs1. assert (out1 = seen).
  { eapply Forall2_unique; [|exact D1|exact DB]. intros x y z. unfold done_by. destruct (pl_rs p); congruence. }
  subst out1. exists us1, us2, cs. auto.
Qed.

(* none of the blocks is unreadable *)
Lemma all_readable : forall cs fs, yields (fdec_next ovf) (frame_decoder cs) fs -> length fs = length cs -> existsb unreadable cs = false.
Proof.
  intros cs fs Y L. destruct (existsb unreadable cs) eqn:E; [|reflexivity]. exfalso. apply existsb_exists in E. destruct E as (b & I & U).
  apply In_nth_error in I. destruct I as [i Ei]. destruct (C33_frames ovf cs fs Y) as [A _].
  destruct (nth_error fs i) as [f|] eqn:Ef; [|apply nth_error_None in Ef; assert (X := proj1 (nth_error_Some cs i) ltac:(congruence)); lia].
  destruct (A i f Ef) as (b' & Eb & _ & D & _). rewrite Ei in Eb. injection Eb as <-.
  assert (S1 := dstep_short ovf [] b U). assert (S2 := dstep_list ovf [] b []). rewrite S1 in S2. cbn [obind] in S2. unfold fdec_next in S2. cbn [fd_cadus] in S2. rewrite D in S2. cbn [obind] in S2.
  destruct (if negb (v_vcid (f_header f) =? VCID_FILL)%N then _ else _) as [m|]; cbn [obind] in S2; discriminate.
Qed.
End Link.
