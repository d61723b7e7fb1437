(* Property C75: what arrives over a link that loses and damages frames *)
From Verif Require Import Base S_Bits S_Packet S_Pn S_Sync S_Frame S_FramePackets S_ReedSolomon S_Pipeline S_Loss
  M_Reader M_Packet M_Bytes M_Sync M_Pn M_Frame M_FramePackets M_ReedSolomon M_RsPipeline M_Pipeline
  L_Base L_Bits L_Packet L_Pn L_Frame L_FramePackets L_FramePackets2 L_ReedSolomon L_RsPipeline L_Pipeline L_Sync L_SyncBits L_SyncRun L_SyncIter L_SyncSafe L_SyncFail L_Loss
  P_Pn P_Sync P_FramePackets P_ReedSolomon P_RsPipeline P_Pipeline.
Open Scope nat_scope.

(* ---- markers with gaps in front of them ---- *)
Lemma air_run : forall len tail, no_more ASM tail 0 ->
  forall air, Forall (fun gb => no_more ASM (fst gb) 0 /\ bytes_ok (snd gb) /\ length (snd gb) = len) air ->
  forall before last, exists items,
    sync_run ASM len (before ++ air_bits air ++ tail) (length before) last (map Ok items) /\
    map bl_data items = map snd air.
Proof.
  intros len tail NM. induction air as [|[gap blk] air IH]; intros HB before last.
  - exists []. split; [|reflexivity]. apply run_end. intros q Hq X. cbn [air_bits flat_map app] in X.
    rewrite occurs_shift in X by exact Hq. exact (NM _ (Nat.le_0_l _) X).
  - inversion HB as [|? ? (HG & Bo & Bl) HB']; subst. cbn [fst snd] in HG, Bo |- *.
    set (rest := air_bits air ++ tail).
    assert (EQ : before ++ air_bits ((gap, blk) :: air) ++ tail = ((before ++ gap) ++ bits ASM ++ bits blk) ++ rest).
    { unfold rest, air_bits. cbn [flat_map fst snd]. rewrite <- !app_assoc. reflexivity. }
    rewrite EQ. set (jk := before ++ gap) in *. set (d := length jk + 8 * length ASM).
    destruct (IH HB' (jk ++ bits ASM ++ bits blk) (l_offset (loc_at d))) as (items & R & M). fold rest in R.
    exists (mkBlock (if last =? 0 then 0 else l_offset (loc_at d) - last) (loc_at d) blk :: items).
    split; [|cbn; congruence]. cbn [map].
    apply (run_start ASM (length blk) _ (length before) (length jk)); [|unfold jk; rewrite app_length; lia|].
    { intros q Hq X. rewrite <- !app_assoc in X. unfold jk in X. rewrite <- app_assoc in X. rewrite occurs_shift in X by lia.
      rewrite (app_assoc gap (bits ASM)) in X. unfold jk in Hq. rewrite app_length in Hq.
      rewrite occurs_app in X by (rewrite app_length, bits_length; lia).
      exact (ASM_junk gap (q - length before) ltac:(lia) HG X). }
    eapply run_block with (p := length jk) (d := d); try reflexivity.
    + split; [lia|]. split; [|intros; lia]. unfold occurs.
      rewrite <- app_assoc, skipn_app_exact, <- app_assoc, <- bits_length. apply firstn_app_exact.
    + unfold d. rewrite !app_length, !bits_length. lia.
    + exact Bo.
    + rewrite <- app_assoc, skipn_app_ge by (unfold d; lia). replace (d - length jk) with (length (bits ASM)) by (unfold d; rewrite bits_length; lia).
      rewrite <- app_assoc, skipn_app_exact, <- bits_length. symmetry. apply firstn_app_exact.
    + replace (d + 8 * length blk) with (length (jk ++ bits ASM ++ bits blk)) by (unfold d; rewrite !app_length, !bits_length; lia).
      exact R.
Qed.

Section Link.
Variables (izone trailer : nat) (ovf : bool) (k : codec) (p : pipeline) (ws : N -> list wire_packet).
Hypothesis HWS : forall v, Forall wire_ok (ws v).

Definition fated (z : sent * fate) (cw : list N) : Prop :=
  match snd z with Arrives => arrives k p (fst z) cw | _ => damaged k p (fst z) cw end.
Definition z_block (z : sent * fate) (b : block) : Prop :=
  (s_vcid (fst z) < 64)%N /\ bytes_ok (bl_data b) /\ length (bl_data b) = pl_block_length p /\ fated z (bl_data b).
Definition z_frame (z : sent * fate) (f : frame) : Prop :=
  v_vcid (f_header f) = s_vcid (fst z) /\ (s_vcid (fst z) = 63%N -> f_missing f = 0%N) /\ f_integrity f = None /\
  bytes_ok (f_data f) /\ length (f_data f) = pl_block_length p /\ fated z (f_data f).

Lemma fated_fill : forall z cw, s_vcid (fst z) = 63%N -> fated z cw -> arrives k p (fst z) cw.
Proof. intros z cw E H. unfold fated, damaged in H. rewrite E in H. destruct (snd z); exact H. Qed.
Lemma fated_header : forall z cw, s_vcid (fst z) <> 63%N -> fated z cw -> firstn 6 cw = firstn 6 (s_frame (fst z)).
Proof.
  intros z cw NF H. unfold fated, damaged, arrives in H. destruct (N.eqb_spec (s_vcid (fst z)) 63); [contradiction|].
  destruct (pl_rs p); destruct (snd z); try (subst; reflexivity); try contradiction; try tauto; destruct H as (check & _ & _ & _ & _ & X); exact X.
Qed.
Lemma fated_decode : forall z b, z_block z b -> (s_vcid (fst z) <> 63)%N ->
  forall c a rest e, sends izone trailer (s_vcid (fst z)) (ws (s_vcid (fst z))) c a (s_frame (fst z) :: rest) e ->
  (c < 2 ^ 24)%N /\ exists scid, vcdu_decode (bl_data b) = Val (Some (mkVcdu 1 scid (s_vcid (fst z)) c)).
Proof.
  intros z b (HV & Hb & HL & HA) NF c a rest e HS. inversion HS as [|? ? n scid sg iz spare ptr tr ? ? H1 H2 H3 H4 H5 H6 H7 H8 H9 H10 H11 H12]; subst.
  match goal with X : aos_frame _ _ _ _ _ _ _ _ _ = s_frame _ |- _ => rename X into EF end.
  split; [assumption|]. exists scid. assert (X := fated_header _ _ NF HA).
  rewrite <- EF in X. unfold aos_frame in X.
  rewrite <- (aos_header_length scid (s_vcid (fst z)) c sg) in X at 2. rewrite firstn_app_exact in X.
  rewrite <- (firstn_skipn 6 (bl_data b)). rewrite X. apply aos_header_decode; try assumption. apply bytes_ok_skipn. exact Hb.
Qed.

Lemma channel_cons : forall v z us, channel v (z :: us) = if (s_vcid (fst z) =? v)%N then z :: channel v us else channel v us.
Proof. reflexivity. Qed.

Lemma sends_rest : forall v pk0 c a d rest e, sends izone trailer v pk0 c a (d :: rest) e -> exists n, sends izone trailer v pk0 (c + 1)%N (a + n) rest e.
Proof. intros v pk0 c a d rest e H. inversion H; subst. eexists. eassumption. Qed.

Lemma decode_lossy : forall us bs, Forall2 z_block (filter turned_up us) bs -> forall before c a e (seen : N -> bool) (n : N -> N),
  (forall v, v <> 63%N -> sends izone trailer v (ws v) (c v) (a v) (map s_frame (map fst (channel v us))) (e v)) ->
  (forall v, v <> 63%N -> if seen v then exists l, last_counter v before = Some l /\ (l + 1 + n v = c v)%N else last_counter v before = None) ->
  exists fs, decoded ovf before bs fs /\ Forall2 z_frame (filter turned_up us) fs /\
    forall v, v <> 63%N -> map f_missing (filter (is_chan v) fs) = gaps_of (seen v) (n v) (map snd (channel v us)).
Proof.
  induction us as [|z us IH]; intros bs UB before c a e seen n HS HL.
  - inversion UB; subst. exists []. repeat split; constructor.
  - destruct (N.eq_dec (s_vcid (fst z)) 63) as [EF|NF].
    + assert (HS2 : forall v, v <> 63%N -> sends izone trailer v (ws v) (c v) (a v) (map s_frame (map fst (channel v us))) (e v)).
      { intros v Hv. specialize (HS v Hv). rewrite channel_cons, EF in HS. destruct (N.eqb_spec 63 v); [congruence|exact HS]. }
      cbn [filter] in UB |- *. destruct (turned_up z) eqn:FZ.
      * inversion UB as [|? b ? bs' ZB UB']; subst. destruct ZB as (V & B1 & B2 & B3).
        assert (X := fated_fill _ _ EF B3). unfold arrives in X. rewrite EF in X. cbn [N.eqb Pos.eqb] in X.
        destruct X as (scid & cc & sg & rest & H1 & H2 & H3 & E).
        assert (D : vcdu_decode (bl_data b) = Val (Some (mkVcdu 1 scid 63 cc))).
        { rewrite E. apply aos_header_decode; try assumption; try lia. rewrite E in B1. apply bytes_ok_app in B1. tauto. }
        set (f := mkFrame (mkVcdu 1 scid 63 cc) 0 None (bl_data b)).
        destruct (IH bs' UB' (before ++ [f]) c a e seen n HS2) as (fs & DD & FF & MM).
        { intros v Hv. rewrite last_counter_snoc. unfold vcid_of. cbn [f f_header v_vcid]. destruct (N.eqb_spec 63 v); [congruence|apply HL; exact Hv]. }
        exists (f :: fs). split; [apply dec_frame; [repeat split; exact D|reflexivity|exact DD]|]. split.
        -- constructor; [|exact FF]. unfold z_frame. cbn [f f_header f_missing f_integrity f_data v_vcid]. rewrite EF. repeat (split; [reflexivity || assumption|]). assumption.
        -- intros v Hv. cbn [filter]. unfold is_chan at 1, chan. cbn [f f_header v_vcid]. rewrite channel_cons, EF.
           destruct (N.eqb_spec 63 v); [congruence|apply MM; exact Hv].
      * destruct (IH bs UB before c a e seen n HS2 HL) as (fs & DD & FF & MM). exists fs. split; [exact DD|]. split; [exact FF|].
        intros v Hv. rewrite channel_cons, EF. destruct (N.eqb_spec 63 v); [congruence|apply MM; exact Hv].
    + assert (HU := HS (s_vcid (fst z)) NF). rewrite channel_cons, N.eqb_refl in HU. cbn [map] in HU.
      destruct (sends_rest _ _ _ _ _ _ _ HU) as [k0 H12].
      set (c' := fun v => if (v =? s_vcid (fst z))%N then (c v + 1)%N else c v).
      set (a' := fun v => if (v =? s_vcid (fst z))%N then a v + k0 else a v).
      assert (HS2 : forall v, v <> 63%N -> sends izone trailer v (ws v) (c' v) (a' v) (map s_frame (map fst (channel v us))) (e v)).
      { intros v Hv. unfold c', a'. destruct (N.eqb_spec v (s_vcid (fst z))) as [->|NV]; [exact H12|].
        specialize (HS v Hv). rewrite channel_cons in HS. destruct (N.eqb_spec (s_vcid (fst z)) v); [congruence|exact HS]. }
      cbn [filter] in UB |- *. destruct (turned_up z) eqn:FZ.
      * inversion UB as [|? b ? bs' ZB UB']; subst.
        destruct (fated_decode z b ZB NF _ _ _ _ HU) as [HC (scid & D)].
        set (m := if seen (s_vcid (fst z)) then n (s_vcid (fst z)) else 0%N).
        set (f := mkFrame (mkVcdu 1 scid (s_vcid (fst z)) (c (s_vcid (fst z)))) m None (bl_data b)).
        assert (MR : missing_rule ovf before f).
        { unfold missing_rule, vcid_of, counter_of. cbn [f f_header f_missing v_vcid v_counter]. destruct (N.eqb_spec (s_vcid (fst z)) 63); [contradiction|].
          specialize (HL _ NF). unfold m. destruct (seen (s_vcid (fst z))); [|rewrite HL; reflexivity].
          destruct HL as (l & -> & EL). change (2 ^ 24)%N with 16777216%N in HC. rewrite missing_frames_spec by lia.
          f_equal. rewrite Z.mod_small by lia. lia. }
        set (seen' := fun v => if (v =? s_vcid (fst z))%N then true else seen v).
        set (n' := fun v => if (v =? s_vcid (fst z))%N then 0%N else n v).
        destruct (IH bs' UB' (before ++ [f]) c' a' e seen' n' HS2) as (fs & DD & FF & MM).
        { intros v Hv. rewrite last_counter_snoc. unfold vcid_of, counter_of, c', seen', n'. cbn [f f_header v_vcid v_counter].
          rewrite (N.eqb_sym (s_vcid (fst z)) v). destruct (N.eqb_spec v (s_vcid (fst z))) as [->|NV]; [|apply HL; exact Hv].
          eexists. split; [reflexivity|]. lia. }
        exists (f :: fs). split; [apply dec_frame; [repeat split; exact D|exact MR|exact DD]|]. split.
        -- constructor; [|exact FF]. destruct ZB as (_ & B1 & B2 & B3). unfold z_frame. cbn [f f_header f_missing f_integrity f_data v_vcid].
           repeat (split; [reflexivity || assumption || congruence|]). assumption.
        -- intros v Hv. cbn [filter]. unfold is_chan at 1, chan. cbn [f f_header v_vcid]. rewrite channel_cons. specialize (MM v Hv). unfold seen', n' in MM.
           rewrite (N.eqb_sym v) in MM. destruct (N.eqb_spec (s_vcid (fst z)) v) as [EV|NV]; [|exact MM].
           cbn [map]. rewrite MM. cbn [gaps_of]. unfold turned_up in FZ. unfold m. cbn [f f_missing]. rewrite <- EV. destruct (snd z); [reflexivity|reflexivity|discriminate].
      * set (n' := fun v => if (v =? s_vcid (fst z))%N then (n v + 1)%N else n v).
        destruct (IH bs UB before c' a' e seen n' HS2) as (fs & DD & FF & MM).
        { intros v Hv. unfold c', n'. specialize (HL v Hv). destruct (N.eqb_spec v (s_vcid (fst z))) as [->|NV]; [|exact HL].
          destruct (seen (s_vcid (fst z))); [|exact HL]. destruct HL as (l & E1 & E2). exists l. split; [exact E1|lia]. }
        exists fs. split; [exact DD|]. split; [exact FF|]. intros v Hv. specialize (MM v Hv). unfold n' in MM. rewrite (N.eqb_sym v) in MM.
        rewrite channel_cons. destruct (N.eqb_spec (s_vcid (fst z)) v) as [EV|NV]; [|exact MM].
        cbn [map gaps_of]. unfold turned_up in FZ. destruct (snd z); try discriminate. exact MM.
Qed.

(* ---- after the Reed-Solomon stage ---- *)
Definition z_out (z : sent * fate) (f : frame) : Prop :=
  v_vcid (f_header f) = s_vcid (fst z) /\
  (bad_frame f <-> snd z = Damaged /\ s_vcid (fst z) <> 63%N) /\
  (s_vcid (fst z) <> 63%N -> snd z = Arrives -> f_data f = s_frame (fst z)) /\
  (s_vcid (fst z) = 63%N \/ snd z = Damaged -> bytes_ok (f_data f) /\ length (f_data f) = pl_block_length p).
Definition same_head (f f' : frame) : Prop := f_header f' = f_header f /\ f_missing f' = f_missing f.

Lemma z_no_rs : pl_rs p = None -> forall z f, turned_up z = true -> z_frame z f -> z_out z f.
Proof.
  intros E z f FZ (V & M & I & B & L & A). unfold z_out. split; [exact V|].
  assert (NB : ~ bad_frame f) by (intros [X|X]; congruence).
  destruct (N.eq_dec (s_vcid (fst z)) 63) as [EF|NF].
  - split; [split; [contradiction|intros [_ X]; contradiction]|]. split; [contradiction|auto].
  - unfold fated, arrives, damaged in A. destruct (N.eqb_spec (s_vcid (fst z)) 63); [contradiction|]. rewrite E in A.
    unfold turned_up in FZ. destruct (snd z); try contradiction; try discriminate.
    split; [split; [contradiction|intros [X _]; discriminate]|]. split; [auto|intros [X|X]; [contradiction|discriminate]].
Qed.

Lemma z_rs : forall o, pl_rs p = Some o -> codec_ok k -> 1 <= ro_interleave o -> ro_virtual_fill o <= 223 * ro_interleave o ->
  forall z f, turned_up z = true -> z_frame z f -> exists f', rs_job k (rs_of_opts o) f = Val f' /\ same_head f f' /\ z_out z f'.
Proof.
  intros o E HK HI HV z f FZ (V & M & I & B & L & A).
  assert (NB : ~ bad_frame f) by (intros [X|X]; congruence).
  destruct (N.eq_dec (s_vcid (fst z)) 63) as [EF|NF].
  { exists f. unfold rs_job. rewrite V, EF. split; [reflexivity|]. split; [split; reflexivity|]. split; [exact V|].
    split; [split; [contradiction|intros [_ X]; contradiction]|]. split; [contradiction|auto]. }
  unfold rs_job. rewrite V. change VCID_FILL with 63%N. unfold fated, arrives, damaged in A.
  destruct (N.eqb_spec (s_vcid (fst z)) 63) as [|_]; [contradiction|]. cbn [negb]. rewrite E in A.
  unfold turned_up in FZ. destruct (snd z) eqn:EZ; [| |discriminate].
  - destruct A as (check & A1 & A2 & A3 & A4 & A5).
    destruct (recovered k o (f_data f) (s_frame (fst z)) check HI HV A1 A2 A3 A4) as (i & HIn & EP). rewrite EP. cbn [obind].
    eexists. split; [reflexivity|]. split; [split; reflexivity|]. unfold z_out, bad_frame. cbn [f_header f_missing f_integrity f_data]. rewrite EZ.
    split; [exact V|]. split; [split; [destruct HIn as [-> | ->]; intros [X|X]; discriminate|intros [X _]; discriminate]|].
    split; [intros _ _; destruct HIn as [-> | ->]; reflexivity|intros [X|X]; [contradiction|discriminate]].
  - destruct A as (A1 & (i & Hi & A2) & A3). cbv zeta in A2. set (c := rs_of_opts o).
    destruct (first_stop k c (codewords (rs_interleave c) (filled c (f_data f)))) as [N0|(pr & w & q & HW & N0 & S1)].
    { exfalso. rewrite Forall_forall in N0. apply (N0 (codeword (ro_interleave o) (repeat 0%N (ro_virtual_fill o) ++ f_data f) i)).
      - unfold codewords. change (rs_interleave c) with (ro_interleave o). change (filled c (f_data f)) with (repeat 0%N (ro_virtual_fill o) ++ f_data f).
        apply in_map. apply in_seq. lia.
      - destruct A2 as [A2|[A2 A4]]; [right; exact A2|left; split; assumption]. }
    assert (W5 := words_255 (rs_interleave c) (filled c (f_data f))). rewrite HW in W5. apply Forall_app in W5.
    rewrite (perform_stops k c (f_data f) pr w q); try assumption; try reflexivity.
    2:{ change (rs_interleave c) with (ro_interleave o). lia. }
    2:{ eapply ok_answers; [exact HK|apply W5|exact N0]. }
    destruct (negb (rs_correct c) && has_errors k w); cbn [obind]; (eexists; split; [reflexivity|]; split; [split; reflexivity|]);
      unfold z_out, bad_frame; cbn [f_header f_missing f_integrity f_data]; rewrite EZ;
      (split; [exact V|]; split; [split; [intros _; split; [reflexivity|exact NF]|intros _; auto]|]; split; [intros _ X; discriminate|auto]).
Qed.

(* ---- the frames of one channel ---- *)
Lemma lossy_of_sends : forall v, (v < 63)%N -> forall l, Forall (fun z => s_vcid (fst z) = v /\ 8 + izone + trailer < length (s_frame (fst z))) l ->
  forall c a e seen n fs, sends izone trailer v (ws v) c a (map s_frame (map fst l)) e ->
  Forall2 z_out (filter turned_up l) fs -> map f_missing fs = gaps_of seen n (map snd l) ->
  lossy izone trailer (ws v) seen (seen && (0 <? n)%N) a (sizes izone trailer l) fs.
Proof.
  intros v HV. induction l as [|z l IH]; intros HL c a e seen n fs HS HF HM.
  - inversion HF; subst. constructor.
  - inversion HL as [|? ? [EV HR] HL']; subst. cbn [map] in HS.
    inversion HS as [|? ? k0 scid sg iz spare ptr tr ? ? H1 H2 H3 H4 H5 H6 H7 H8 H9 H10 H11 H12]; subst.
    match goal with X : aos_frame _ _ _ _ _ _ _ _ _ = s_frame _ |- _ => rename X into EF end.
    assert (RM : room (length iz) (length tr) (s_frame (fst z)) = k0).
    { unfold room. rewrite <- EF. unfold aos_frame. rewrite !app_length, firstn_length, skipn_length, aos_header_length. cbn [length]. lia. }
    assert (PK : 0 < k0) by (rewrite <- RM; unfold room; lia).
    assert (PB := pointer_bound _ _ _ _ H10 H11).
    cbn [sizes map]. fold (sizes (length iz) (length tr) l). rewrite RM. clear RM.
    cbn [filter] in HF. cbn [map gaps_of] in HM. unfold turned_up in HF at 1. destruct (snd z) eqn:EZ; cbn [not_lost] in HF.
    + inversion HF as [|? f ? fs' (Z1 & Z2 & Z3 & Z4) HF']; subst. cbn [map] in HM. injection HM as M1 M2.
      assert (FD : f_data f = aos_frame scid (s_vcid (fst z)) c sg iz spare ptr (firstn k0 (skipn a (stream (ws (s_vcid (fst z)))))) tr).
      { rewrite Z3; [symmetry; exact EF|lia|exact EZ]. }
      destruct (aos_frame_zones _ _ _ _ _ _ _ _ _ f FD H4 PB) as (X1 & X2 & X3).
      apply lossy_arrives; try assumption.
      * rewrite Z2, EZ. intros [X _]. discriminate.
      * rewrite M1. destruct seen; cbn [andb]; [|tauto]. rewrite N.ltb_ge. lia.
      * rewrite X2. exact H11.
      * change false with (true && (0 <? 0)%N). eapply IH; eassumption.
    + inversion HF as [|? f ? fs' (Z1 & Z2 & Z3 & Z4) HF']; subst. cbn [map] in HM. injection HM as M1 M2.
      apply lossy_damaged; try assumption.
      * apply Z2. split; [exact EZ|lia].
      * change false with (true && (0 <? 0)%N). eapply IH; eassumption.
    + apply lossy_lost; try assumption.
      replace seen with (seen && (0 <? n + 1)%N) at 2 by (destruct seen; [|reflexivity]; cbn [andb]; rewrite N.ltb_lt; lia).
      eapply IH; eassumption.
Qed.

Lemma z_channel : forall v us fs, (v <> 63)%N -> Forall2 z_out (filter turned_up us) fs ->
  Forall2 z_out (filter turned_up (channel v us)) (filter (is_chan v) fs) /\ Forall (fun f => chan f = v) (filter (is_chan v) fs).
Proof.
  intros v us. induction us as [|z us IH]; intros fs NF H.
  - inversion H; subst. split; constructor.
  - rewrite channel_cons. cbn [filter] in H. destruct (turned_up z) eqn:FZ.
    + inversion H as [|? f ? fs' Z H']; subst. destruct (IH fs' NF H') as [A B]. cbn [filter].
      replace (is_chan v f) with (s_vcid (fst z) =? v)%N by (unfold is_chan, chan; rewrite (proj1 Z); reflexivity).
      destruct (N.eqb_spec (s_vcid (fst z)) v) as [EV|_]; [|auto]. cbn [filter]. rewrite FZ.
      split; constructor; try assumption. unfold chan. rewrite (proj1 Z). exact EV.
    + destruct (IH fs NF H) as [A B]. destruct (s_vcid (fst z) =? v)%N; [|auto]. cbn [filter]. rewrite FZ. auto.
Qed.

Lemma z_frames_ok : forall us fs c a e, Forall (fun z => (s_vcid (fst z) < 64)%N) us -> Forall2 z_out (filter turned_up us) fs ->
  (forall v, v <> 63%N -> sends izone trailer v (ws v) (c v) (a v) (map s_frame (map fst (channel v us))) (e v)) ->
  6 + izone + 2 + trailer <= pl_block_length p ->
  frames_ok izone trailer fs.
Proof.
  intros us fs c a e HV H HS HL. unfold frames_ok. apply Forall_forall. intros f I.
  assert (exists z, In z (filter turned_up us) /\ z_out z f) as (z & Iz & (V & NB & D & F)).
  { clear -H I. induction H as [|u g us' fs U _ IH]; [destruct I|]. destruct I as [<-|I]; [exists u; split; [left; reflexivity|exact U]|].
    destruct (IH I) as (u' & X & Y). exists u'. split; [right; exact X|exact Y]. }
  apply filter_In in Iz. destruct Iz as [Iz FZ].
  rewrite Forall_forall in HV. specialize (HV z Iz).
  assert (G : s_vcid (fst z) = 63%N \/ snd z = Damaged -> bytes_ok (f_data f) /\ long_enough izone trailer f).
  { intro X. destruct (F X) as [F1 F2]. split; [exact F1|unfold long_enough; lia]. }
  destruct (N.eq_dec (s_vcid (fst z)) 63) as [EF|NF]; [auto|].
  unfold turned_up in FZ. destruct (snd z) eqn:EZ; [|auto|discriminate].
  assert (X := sent_ok izone trailer ws HWS _ _ _ _ _ HV (HS _ NF)). rewrite Forall_forall in X. specialize (X (s_frame (fst z))). unfold long_enough. rewrite (D NF eq_refl).
  apply X. apply in_map, in_map. apply filter_In. split; [exact Iz|apply N.eqb_refl].
Qed.
End Link.

(* ---- C75 ---- *)
(* Units [us] are sent, in order; every one arrives, arrives damaged beyond repair or is not found at
   all, in any combination. The stream holds the blocks of those found behind markers; before each
   marker and at the end there may be any bits that do not contain a marker. Then, for every cutting of
   the stream into reads and every interleaving of the threads: the frames are those of the units
   found; the damaged ones are exactly those flagged; the losses reported with the frames of each
   channel are exactly the numbers of units lost in between; and the packets decoded of each channel
   are exactly those of which every byte travelled in a frame that arrived. *)
Theorem C75_end_to_end_with_loss : forall izone trailer ovf k nthreads p ws us c a e r bs air tail,
  1 <= nthreads -> codec_ok k ->
  (forall v, Forall wire_ok (ws v)) -> (forall v, Forall telemetry (ws v)) ->
  match pl_rs p with None => True | Some o => 1 <= ro_interleave o /\ ro_virtual_fill o <= 223 * ro_interleave o end ->
  6 + izone + 2 + trailer <= pl_block_length p ->
  Forall (reaches k p) us ->
  Forall (fun z => s_vcid (fst z) <> 63%N -> 8 + izone + trailer < length (s_frame (fst z))) us ->
  (forall v, (v < 63)%N -> sends izone trailer v (ws v) (c v) (a v) (map s_frame (map fst (channel v us))) (e v)) ->
  bytes_ok bs -> delivers r bs ->
  bits bs = air_bits air ++ tail -> map snd air = map s_block (map fst (filter turned_up us)) ->
  Forall (fun gb => no_more ASM (fst gb) 0) air -> no_more ASM tail 0 ->
  (exists out, pipeline_start ovf k nthreads p r out) /\
  forall out, pipeline_start ovf k nthreads p r out ->
    map (fun f => v_vcid (f_header f)) out = map (fun z => s_vcid (fst z)) (filter turned_up us) /\
    Forall2 (fun z f => bad_frame f <-> snd z = Damaged /\ s_vcid (fst z) <> 63%N) (filter turned_up us) out /\
    (forall v, (v < 63)%N -> map f_missing (filter (is_chan v) out) = gaps_of false 0 (map snd (channel v us))) /\
    exists cs, length cs = length out /\
      yields (fpiter_next izone trailer) (packet_decoder out) (concat cs) /\
      forall v, (v < 63)%N ->
        (* what the frames of channel v contributed *)
        concat (map snd (filter (fun fc => is_chan v (fst fc)) (combine out cs))) =
        map pk (map snd (filter (whole (arrived (a v) (sizes izone trailer (channel v us)))) (with_pos 0 (ws v)))).
Proof.
  intros izone trailer ovf k nthreads p ws us c a e r bs air tail HN HK HW HT HR HL HTr HRoom HS Hb HD EB EA HG HTa.
  assert (HV : Forall (fun z => (s_vcid (fst z) < 64)%N) us) by (eapply Forall_impl; [|exact HTr]; intros u X; apply X).
  set (e' := fun v => if (v <? 63)%N then e v else a v).
  assert (HS' : forall v, (v <> 63)%N -> sends izone trailer v (ws v) (c v) (a v) (map s_frame (map fst (channel v us))) (e' v)).
  { intros v Hv. unfold e'. destruct (N.ltb_spec v 63); [apply HS; assumption|].
    replace (channel v us) with (@nil (sent * fate)); [constructor|]. symmetry. apply filter_none. intros z I.
    rewrite Forall_forall in HV. specialize (HV z I). unfold on_channel. lia. }
  (* blocks *)
  assert (HFo : Forall (fun z => reaches k p z /\ turned_up z = true) (filter turned_up us)).
  { apply Forall_forall. intros z I. apply filter_In in I. destruct I as [I F]. rewrite Forall_forall in HTr. auto. }
  destruct (air_run (pl_block_length p) tail HTa air) with (before := @nil bool) (last := 0) as (items & R & EI).
  { assert (X : Forall (fun b => bytes_ok b /\ length b = pl_block_length p) (map snd air)).
    { rewrite EA. clear -HFo. induction HFo as [|z zs [[_ [X|(cw & _ & A & B & _)]] F] _ IH]; cbn [map]; constructor; auto. unfold turned_up in F. rewrite X in F. discriminate. }
    clear -HG X. induction air as [|gb air IH]; constructor; inversion HG; inversion X; subst; auto. }
  cbn [app length] in R. rewrite <- EB in R. apply (sync_iff ASM (pl_block_length p) r bs) in R; [|repeat constructor|discriminate|exact Hb|exact HD].
  rename R into Y1. rewrite EA in EI.
  set (blocks := if pl_derandomize p then derandomize items else items).
  assert (UB : Forall2 (z_block k p) (filter turned_up us) blocks).
  { unfold blocks. clear -EI HFo. revert items EI. induction HFo as [|z zs [[V X] F] _ IH]; intros items EI.
    - destruct items; [|discriminate]. destruct (pl_derandomize p); constructor.
    - destruct X as [X|(cw & Hc & H2 & H3 & H4 & H5)]; [unfold turned_up in F; rewrite X in F; discriminate|].
      destruct items as [|b items]; [discriminate|]. cbn [map] in EI. injection EI as Eb EI. specialize (IH items EI).
      destruct (pl_derandomize p).
      + constructor; [|exact IH]. unfold z_block, derandomize_cadu. cbn [bl_data]. rewrite Eb.
        assert (DR := derandomized cw (s_block (fst z)) Hc H4). rewrite DR. destruct H4 as (_ & LL & _).
        repeat (split; [assumption || congruence|]). exact H5.
      + constructor; [|exact IH]. unfold z_block. rewrite Eb, H4. rewrite H4 in H3. auto. }
  (* frames *)
  destruct (decode_lossy izone trailer ovf k p ws HW us blocks UB [] c a e' (fun _ => false) (fun _ => 0%N) HS') as (fs & DD & FF & MM); [intros; reflexivity|].
  assert (Y2 : yields (fdec_next ovf) (frame_decoder blocks) fs) by (apply (decoded_iff ovf blocks [] [] fs); [intro; reflexivity|exact DD]).
  assert (FO : Forall (fun z => turned_up z = true) (filter turned_up us)) by (eapply Forall_impl; [|exact HFo]; intros z X; apply X).
  (* the final frames *)
  assert (OUT : (exists out, pipeline_start ovf k nthreads p r out) /\ forall out, pipeline_start ovf k nthreads p r out -> Forall2 (z_out p) (filter turned_up us) out /\ Forall2 same_head fs out).
  { assert (DET : forall out, pipeline_start ovf k nthreads p r out -> match pl_rs p with None => out = fs | Some o =>
        exists s, reachable (rs_job k (rs_of_opts o)) (ro_buffer_size o) nthreads fs s /\ st_consumer s = CEnded /\ st_recv s = out end).
    { intros out [items' blocks' frames out' Z1 Z2 Z3 Z4]. assert (items' = map Ok items) by (eapply yields_det; [exact Z1|exact Y1]). subst items'.
      rewrite oks_map_Ok in Z2. fold blocks in Z2. subst blocks'.
      assert (frames = fs) by (destruct Z3 as [Z3|[_ Z3]]; [eapply yields_det; [exact Z3|exact Y2]|destruct (yields_not_panics _ _ _ _ _ _ Y2 Z3)]). subst frames.
      destruct (pl_rs p); [exact Z4|congruence]. }
    destruct (pl_rs p) as [o|] eqn:ER.
    - assert (JOBS : exists out, Forall2 (fun f f' => rs_job k (rs_of_opts o) f = Val f') fs out /\ Forall2 (z_out p) (filter turned_up us) out /\ Forall2 same_head fs out).
      { clear -FF FO ER HR HK. induction FF as [|z f zs fs U _ IH]; [exists []; repeat split; constructor|]. inversion FO; subst.
        destruct IH as (out & A & B & C); [assumption|].
        destruct (z_rs k p o ER HK (proj1 HR) (proj2 HR) z f) as (f' & D & E1 & E2); try assumption. exists (f' :: out). repeat split; constructor; assumption. }
      destruct JOBS as (out & J1 & J2). split.
      + destruct (C46_can_finish _ (rs_job k (rs_of_opts o)) (ro_buffer_size o) nthreads fs (init fs)) as (ls & s' & E1 & _ & E2 & _); try assumption.
        * intros f I X. clear -J1 I X. induction J1 as [|g g' fs out J _ IH]; [destruct I|]. destruct I as [<-|I]; [congruence|exact (IH I)].
        * exists []. constructor.
        * discriminate.
        * exists (st_recv s'). eapply start_intro; [exact Y1|reflexivity| |].
          -- rewrite oks_map_Ok. left. exact Y2.
          -- rewrite ER. exists s'. split; [exists ls; exact E1|auto].
      + intros out' P. destruct (DET out' P) as (s & S1 & S2 & S3). assert (X := ended_all _ _ _ _ _ _ S1 S2). rewrite S3 in X.
        replace out' with out; [exact J2|]. eapply Forall2_unique; [|exact J1|exact X]. intros; cbn in *; congruence.
    - assert (J2 : Forall2 (z_out p) (filter turned_up us) fs).
      { clear -FF FO ER. induction FF; inversion FO; subst; constructor; [eapply z_no_rs; eassumption|auto]. }
      assert (J3 : Forall2 same_head fs fs) by (clear; induction fs; constructor; [split; reflexivity|assumption]).
      split.
      + exists fs. eapply start_intro; [exact Y1|reflexivity| |rewrite ER; reflexivity]. rewrite oks_map_Ok. left. exact Y2.
      + intros out P. rewrite (DET out P). auto. }
  destruct OUT as [EX OUT]. split; [exact EX|]. intros out P. destruct (OUT out P) as [OU SH]. clear OUT.
  assert (MO : forall v, (v < 63)%N -> map f_missing (filter (is_chan v) out) = gaps_of false 0 (map snd (channel v us))).
  { intros v Hv. rewrite <- (MM v) by lia. clear -SH. induction SH as [|f f' fs out [A B] _ IH]; [reflexivity|]. cbn [filter].
    replace (is_chan v f') with (is_chan v f) by (unfold is_chan, chan; rewrite A; reflexivity). destruct (is_chan v f); [cbn [map]; congruence|exact IH]. }
  split. { clear -OU. induction OU as [|u f us' fs (V & _) _ IH]; [reflexivity|]. cbn. congruence. }
  split. { clear -OU. induction OU as [|u f us' fs (_ & M & _) _ IH]; constructor; assumption. }
  split; [exact MO|].
  assert (FOK := z_frames_ok izone trailer p ws HW us out c a e' HV OU HS' HL).
  destruct (C37_channels_independent izone trailer out FOK) as (cs & LC & Y & CH).
  exists cs. split; [exact LC|]. split; [exact Y|]. intros v Hv.
  destruct (z_channel p v us out ltac:(lia) OU) as [A B].
  eapply yields_det; [apply CH|]. apply single_iff with (v := v).
  - unfold frames_ok in *. apply Forall_forall. intros f I. apply filter_In in I. rewrite Forall_forall in FOK. apply FOK, I.
  - exact B.
  - apply loss_from_start; [apply HW|apply HT|]. change false with (false && (0 <? 0)%N) at 2.
    eapply (lossy_of_sends izone trailer ovf p ws HW v Hv); [|apply HS; exact Hv|exact A|apply MO; exact Hv].
    apply Forall_forall. intros z I. apply filter_In in I. destruct I as [I O]. unfold on_channel in O. apply N.eqb_eq in O.
    split; [exact O|]. rewrite Forall_forall in HRoom. apply HRoom; [exact I|lia].
Qed.
Print Assumptions C75_end_to_end_with_loss.

(* a link that meets the hypotheses: channel 3 loses a unit, channel 5 has one damaged, noise in between *)
Definition lx_codec : codec :=
  mkCodec (fun w => (last w 0 =? 99)%N) (fun w => if (last w 0 =? 99)%N then (RsUncorrectable, None) else (RsOk, Some w)).
Definition lx_pkts (v : N) : list wire_packet :=
  if (v =? 3)%N then [ex_pkt 5 9; ex_pkt 6 9; ex_pkt 7 9] else if (v =? 5)%N then [ex_pkt 8 24; ex_pkt 9 9] else [].
Definition lx_part (v : N) (i : nat) : list N := firstn 15 (skipn (15 * i) (stream (lx_pkts v))).
Definition lx_unit (chk v : N) (frm : list N) : sent := mkSent v frm (derandomize_bytes (frm ++ repeat chk 32)).
Definition lx_us : list (sent * fate) :=
  [(lx_unit 77 3 (ex_frm 3 9 0 (lx_part 3 0)), Arrives);
   (lx_unit 77 5 (ex_frm 5 100 0 (lx_part 5 0)), Arrives);
   (lx_unit 77 3 (ex_frm 3 10 0 (lx_part 3 1)), Lost);
   (lx_unit 77 63 (ex_frm 63 4 2046 (repeat 0%N 15)), Arrives);
   (lx_unit 99 5 (ex_frm 5 101 2047 (lx_part 5 1)), Damaged);
   (lx_unit 77 5 (ex_frm 5 102 0 (lx_part 5 2)), Arrives);
   (lx_unit 77 3 (ex_frm 3 11 0 (lx_part 3 2)), Arrives)].
Definition lx_bytes (z : sent * fate) : list N := match snd z with Lost => [26; 207; 1] | _ => ASM ++ s_block (fst z) end%N.
Definition lx_stream : list N := concat (map lx_bytes lx_us).
Definition lx_air : list (list bool * list N) :=
  map (fun z => (match v_vcid (mkVcdu 1 0 (s_vcid (fst z)) 0) with 63%N => bits [26; 207; 1]%N | _ => [] end, s_block (fst z))) (filter turned_up lx_us).
Lemma lx_starts : forall ws y, starts_at ws y <-> In y (map fst (with_pos 0 ws)).
Proof.
  intros ws y. unfold starts_at. rewrite in_map_iff. split; [intros [w H]; exists (y, w); auto|intros ([y' w] & E & H)]. cbn in E. subst. eauto.
Qed.
Lemma lx_ptr0 : forall v i, (v = 3%N /\ i < 3) \/ (v = 5%N /\ (i = 0 \/ i = 2)) -> pointer_correct (lx_pkts v) (15 * i) 15 0.
Proof.
  intros v i H. left. exists (15 * i). rewrite lx_starts. split; [|split; [lia|split; [lia|lia]]].
  destruct H as [[-> H]|[-> [-> | ->]]]; [destruct i as [|[|[|i]]]; [| | |lia]| |]; cbn; tauto.
Qed.
Lemma lx_ptr_none : pointer_correct (lx_pkts 5) 15 15 2047.
Proof.
  right. split; [|reflexivity]. intros y H. rewrite lx_starts in H. cbn in H. lia.
Qed.
Lemma lx_sends : forall v (l : list (nat * nat)) i c,
  (forall j ptr, In (j, ptr) l -> pointer_correct (lx_pkts v) (15 * j) 15 ptr /\ 15 * j + 15 <= length (stream (lx_pkts v))) ->
  map fst l = seq i (length l) -> (c + N.of_nat (length l) < 2 ^ 24)%N ->
  sends 0 0 v (lx_pkts v) c (15 * i) (map (fun q => ex_frm v (c + N.of_nat (fst q - i)) (snd q) (lx_part v (fst q))) l) (15 * i + 15 * length l).
Proof.
  intro v. induction l as [|[j ptr] l IH]; intros i c H HF HC.
  - cbn [map length]. rewrite Nat.mul_0_r, Nat.add_0_r. constructor.
  - cbn [map fst snd length seq] in *. injection HF as -> HF. destruct (H i ptr (or_introl eq_refl)) as [H1 H2].
    rewrite Nat.sub_diag, N.add_0_r.
    replace (map _ l) with (map (fun q => ex_frm v (c + 1 + N.of_nat (fst q - S i)) (snd q) (lx_part v (fst q))) l).
    2:{ apply map_ext_in. intros [j q] I. cbn [fst snd]. assert (X : In j (seq (S i) (length l))) by (rewrite <- HF; apply (in_map fst) in I; exact I).
        apply in_seq in X. replace (c + 1 + N.of_nat (j - S i))%N with (c + N.of_nat (j - i))%N by lia. reflexivity. }
    apply (sends_cons 0 0 v (lx_pkts v) c (15 * i) 15 157%N 0%N [] 0%N ptr [] _ _); try reflexivity; try lia; try assumption; try (constructor; fail).
    replace (15 * i + 15) with (15 * S i) by lia. replace (15 * i + 15 * S (length l)) with (15 * S i + 15 * length l) by lia.
    apply IH; [|exact HF|lia]. intros j q I. apply H. right. exact I.
Qed.
Lemma lx_reaches : forall chk v frm x, (v < 64)%N -> bytes_ok frm -> length frm = 23 -> (chk < 256)%N ->
  (v = 63%N -> exists rest, frm = aos_header 157 63 4 0 ++ rest) -> (chk = 99%N <-> x = Damaged) -> x <> Lost ->
  reaches lx_codec ex_pl (lx_unit chk v frm, x).
Proof.
  intros chk v frm x HV HB HL HK HF HX NLo. split; [exact HV|]. right. exists (frm ++ repeat chk 32).
  assert (HB2 : bytes_ok (frm ++ repeat chk 32)).
  { apply bytes_ok_app; split; [exact HB|]. apply Forall_forall. intros y I. apply repeat_spec in I. subst. exact HK. }
  assert (R := randomized_derandomize _ HB2). split; [exact HB2|]. split; [apply R|]. cbn [fst snd].
  split; [cbn [lx_unit s_block]; destruct R as (_ & R & _); rewrite R, app_length, HL; reflexivity|]. split; [exact R|].
  assert (H6 : firstn 6 (frm ++ repeat chk 32) = firstn 6 frm) by (destruct frm as [|x0 [|x1 [|x2 [|x3 [|x4 [|x5 frm]]]]]]; try discriminate; reflexivity).
  assert (LW : last (codeword 1 (repeat 0%N 200 ++ frm ++ repeat chk 32) 0) 0%N = chk).
  { do 24 (destruct frm as [|? frm]; try discriminate). reflexivity. }
  destruct (N.eqb_spec v 63) as [EV|NV].
  - assert (A : arrives lx_codec ex_pl (lx_unit chk v frm) (frm ++ repeat chk 32)).
    { unfold arrives. cbn [lx_unit s_vcid s_frame]. subst v. destruct (HF eq_refl) as [rest ->]. exists 157%N, 4%N, 0%N, (rest ++ repeat chk 32).
      rewrite app_assoc. repeat split; reflexivity. }
    destruct x; [exact A| |]; (unfold damaged; subst v; exact A).
  - destruct x.
    + unfold arrives. cbn [lx_unit s_vcid s_frame]. destruct (N.eqb_spec v 63); [contradiction|].
      cbn [ex_pl pipeline_with_rs pl_rs]. exists (repeat chk 32). split; [reflexivity|]. split; [reflexivity|]. split; [rewrite app_length, HL; reflexivity|].
      split; [|exact H6]. intros i Hi. cbn [ro_interleave ro_virtual_fill ro_correct] in *. replace i with 0 by lia.
      unfold lx_codec. cbn [has_errors correct_message]. rewrite LW.
      destruct (N.eqb_spec chk 99) as [E|NE]; [apply HX in E; discriminate|].
      split; [reflexivity|]. eexists; eexists. split; [reflexivity|]. split; [discriminate|]. rewrite codeword_length. split; [lia|reflexivity].
    + unfold damaged. cbn [lx_unit s_vcid s_frame]. destruct (N.eqb_spec v 63); [contradiction|].
      cbn [ex_pl pipeline_with_rs pl_rs]. split; [rewrite app_length, HL; reflexivity|]. split; [|exact H6].
      exists 0. split; [cbn; lia|]. left. unfold is_uncorrectable, lx_codec. cbn [ro_interleave ro_virtual_fill correct_message]. rewrite LW.
      rewrite (proj2 HX eq_refl). reflexivity.
    + destruct (NLo eq_refl).
Qed.
Lemma lx_codec_ok : codec_ok lx_codec.
Proof.
  intros w HL HU. unfold lx_codec in *. cbn [correct_message] in *. destruct (_ =? _)%N; [destruct HU; reflexivity|].
  exists w. split; [reflexivity|]. lia.
Qed.
Lemma short_no_more : forall B, length B < 32 -> no_more ASM B 0.
Proof. intros B H q _ X. apply occurs_bound in X; [change (8 * length ASM) with 32 in X; lia|discriminate]. Qed.
Example C75_ex :
  (exists out, pipeline_start true lx_codec 2 ex_pl (reader_of lx_stream) out) /\
  forall out, pipeline_start true lx_codec 2 ex_pl (reader_of lx_stream) out ->
    map (fun f => v_vcid (f_header f)) out = [3; 5; 63; 5; 5; 3]%N /\
    map f_missing (filter (is_chan 3) out) = [0; 1]%N /\
    map f_missing (filter (is_chan 5) out) = [0; 0; 0]%N /\
    exists cs, yields (fpiter_next 0 0) (packet_decoder out) (concat cs) /\
      concat (map snd (filter (fun fc => is_chan 3 (fst fc)) (combine out cs))) = [pk (ex_pkt 5 9); pk (ex_pkt 7 9)] /\
      concat (map snd (filter (fun fc => is_chan 5 (fst fc)) (combine out cs))) = [pk (ex_pkt 9 9)].
Proof.
  destruct (C75_end_to_end_with_loss 0 0 true lx_codec 2 ex_pl lx_pkts lx_us (fun v => if (v =? 3)%N then 9 else if (v =? 5)%N then 100 else 0)%N (fun _ => 0)
     (fun v => if (v =? 3)%N then 45 else if (v =? 5)%N then 45 else 0) (reader_of lx_stream) lx_stream lx_air []) as [EX H].
  - lia.
  - exact lx_codec_ok.
  - intro v. unfold lx_pkts. destruct (v =? 3)%N; [|destruct (v =? 5)%N]; repeat constructor; bytes_tac.
  - intro v. unfold lx_pkts. destruct (v =? 3)%N; [|destruct (v =? 5)%N]; repeat constructor.
  - cbn. lia.
  - cbn. lia.
  - repeat apply Forall_cons; try apply Forall_nil;
      first [ split; [reflexivity|left; reflexivity] | apply lx_reaches; try reflexivity; try (intro; discriminate); try (split; intro; discriminate); try (split; reflexivity); try bytes_tac ].
    intros _. eexists. unfold ex_frm, aos_frame. reflexivity.
  - repeat apply Forall_cons; try apply Forall_nil; intros _; cbn; lia.
  - intros v Hv. destruct (N.eqb_spec v 3) as [->|N3]; [|destruct (N.eqb_spec v 5) as [->|N5]].
    + apply (lx_sends 3 [(0, 0); (1, 0); (2, 0)] 0 9); [|reflexivity|reflexivity].
      intros j ptr I. cbn [In] in I. split; [replace ptr with 0 by (intuition congruence); apply lx_ptr0; left; split; [reflexivity|] |change (length (stream (lx_pkts 3))) with 45];
        decompose [or False] I; match goal with X : (_, _) = _ |- _ => injection X as <- <- end; lia.
    + apply (lx_sends 5 [(0, 0); (1, 2047); (2, 0)] 0 100); [|reflexivity|reflexivity].
      intros j ptr I. cbn [In] in I. split; [|change (length (stream (lx_pkts 5))) with 45; decompose [or False] I; match goal with X : (_, _) = _ |- _ => injection X as <- <- end; lia].
      destruct I as [I|[I|[I|[]]]]; injection I as <- <-; [apply (lx_ptr0 5 0)|apply lx_ptr_none|apply (lx_ptr0 5 2)]; auto.
    + replace (channel v lx_us) with (@nil (sent * fate)); [constructor|]. unfold lx_us, channel, on_channel. cbn [filter lx_unit s_vcid fst].
      destruct (N.eqb_spec 3 v); [congruence|]. destruct (N.eqb_spec 5 v); [congruence|]. destruct (N.eqb_spec 63 v); [lia|reflexivity].
  - vm_compute. bytes_tac.
  - apply delivers_file. discriminate.
  - vm_compute. reflexivity.
  - reflexivity.
  - repeat apply Forall_cons; try apply Forall_nil; apply short_no_more; cbn; lia.
  - apply short_no_more. cbn. lia.
  - split; [exact EX|]. intros out P. destruct (H out P) as (A & _ & B & cs & _ & Y & C). split; [exact A|].
    split; [exact (B 3%N eq_refl)|]. split; [exact (B 5%N eq_refl)|]. exists cs. split; [exact Y|].
    split; [exact (C 3%N eq_refl)|exact (C 5%N eq_refl)].
Qed.
