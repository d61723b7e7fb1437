From Verif Require Import Base S_Bits M_Packet M_Bytes M_Sync M_Frame L_Base L_Bits S_Packet L_Packet.
Open Scope N_scope.

(* ---- VCDU header ---- *)
Lemma field3 : forall a b c rest, a < 256 -> b < 256 -> c < 256 ->
  field (a :: b :: c :: rest) 0 24 = be32 0 a b c.
Proof.
  intros a b c rest Ha Hb Hc. change (a :: b :: c :: rest) with ([a; b; c] ++ rest).
  rewrite field_app_l by (cbn; lia). rewrite field_be by (cbn; try lia; repeat constructor; assumption).
  cbn [length]. change (2 ^ N.of_nat (8 * 3 - 0 - 24)) with 1. rewrite N.div_1_r.
  rewrite N.mod_small; unfold be32, be; cbn [fold_left]; change (2 ^ N.of_nat 24) with 16777216; lia.
Qed.

Lemma vcdu_decode_spec : forall dat, bytes_ok dat -> (6 <= length dat)%nat ->
  vcdu_decode dat = Val (match field dat 0 2 with
    | 0 => Some (mkVcdu 0 (field dat 2 10) (field dat 12 3) (field dat 16 16))
    | 1 => Some (mkVcdu 1 (field dat 2 8) (field dat 10 6) (field dat 16 24))
    | _ => None end).
Proof.
  intros dat Hb Hl. destruct (six dat Hl) as (b0 & b1 & b2 & b3 & b4 & b5 & rest & ->).
  unfold bytes_ok in Hb. repeat match goal with H : Forall _ (_ :: _) |- _ => inversion H; subst; clear H end.
  unfold vcdu_decode. replace (length _ <? VCDU_LEN)%nat with false by (symmetry; apply Nat.ltb_ge; exact Hl).
  cbn [get nth_error obind].
  assert (E0 : N.land (N.shiftr b0 6) 3 = field (b0 :: b1 :: b2 :: b3 :: b4 :: b5 :: rest) 0 2).
  { rewrite field2 by (assumption || lia). rewrite (shr_mask b0 6 2 3 eq_refl). unfold be16.
    change (16 - 0 - 2)%nat with 14%nat. change (2 ^ N.of_nat 14) with 16384. change (2 ^ N.of_nat 2) with 4. change (2 ^ 6) with 64. change (2 ^ 2) with 4.
    f_equal. lia. }
  rewrite E0. destruct (field _ 0 2) as [|[p|p|]]; try reflexivity.
  - unfold vcdu_decode_v1. cbn [get nth_error obind]. do 2 f_equal. f_equal.
    + rewrite field2 by (assumption || lia). apply (shr_mask _ 4 10 0x3ff eq_refl).
    + rewrite field2 by (assumption || lia). apply (shr_mask _ 1 3 7 eq_refl).
    + change 16%nat with (16 + 0)%nat at 1. rewrite field_skip2, field2 by (assumption || lia).
      change (2 ^ N.of_nat (16 - 0 - 16)) with 1. rewrite N.div_1_r. rewrite N.mod_small by (apply be16_bound; assumption).
      unfold be32, be16. lia.
  - unfold vcdu_decode_v2. cbn [get nth_error obind]. do 2 f_equal. f_equal.
    + rewrite field2 by (assumption || lia). apply (shr_mask _ 6 8 0xff eq_refl).
    + rewrite field2 by (assumption || lia). rewrite (and_mask _ 6 0x3f eq_refl). 
      change (2 ^ N.of_nat (16 - 10 - 6)) with 1. rewrite N.div_1_r. reflexivity.
    + change 16%nat with (16 + 0)%nat at 1. rewrite field_skip2, field3 by assumption. reflexivity.
Qed.
Lemma vcdu_decode_short : forall dat, (length dat < 6)%nat -> vcdu_decode dat = Val None.
Proof. intros dat H. unfold vcdu_decode. replace (length dat <? VCDU_LEN)%nat with true by (symmetry; apply Nat.ltb_lt; exact H). reflexivity. Qed.
(* no bound on bytes needed for totality *)
Lemma vcdu_decode_total : forall dat, exists o, vcdu_decode dat = Val o.
Proof.
  intro dat. destruct (Nat.lt_ge_cases (length dat) 6) as [H|H].
  - exists None. apply vcdu_decode_short. exact H.
  - destruct (six dat H) as (b0 & b1 & b2 & b3 & b4 & b5 & rest & ->).
    unfold vcdu_decode. replace (length _ <? VCDU_LEN)%nat with false by (symmetry; apply Nat.ltb_ge; exact H).
    cbn [get nth_error obind]. destruct (N.land (N.shiftr b0 6) 3) as [|[p|p|]]; eexists; reflexivity.
Qed.
Lemma vcdu_counter_bound : forall dat h, bytes_ok dat -> vcdu_decode dat = Val (Some h) -> v_counter h < 2 ^ 24.
Proof.
  intros dat h Hb E. destruct (Nat.lt_ge_cases (length dat) 6) as [H|H].
  - rewrite vcdu_decode_short in E by exact H. discriminate.
  - rewrite vcdu_decode_spec in E by assumption. destruct (field dat 0 2) as [|[p|p|]]; try discriminate; injection E as <-; cbn [v_counter].
    + assert (B := field_bound dat 16 16). change (2 ^ N.of_nat 16) with 65536 in B. lia.
    + assert (B := field_bound dat 16 24). exact B.
Qed.

(* ---- missing_frames ---- *)
Definition M24 : Z := 16777215.
Lemma missing_frames_spec : forall ovf cur last, cur < 16777216 -> last < 16777215 ->
  missing_frames ovf cur last = Val (Z.to_N ((Z.of_N cur - Z.of_N last - 1) mod 16777215)).
Proof.
  intros ovf cur last Hc Hl. unfold missing_frames, add_w, sub_w. change COUNTER_MAX with 16777214. change (2 ^ 32) with 4294967296.
  destruct (N.eqb_spec cur last) as [->|NE].
  { f_equal. replace (Z.of_N last - Z.of_N last - 1)%Z with (-1)%Z by lia. reflexivity. }
  destruct (N.eqb_spec last 16777214) as [->|NL]; cbn [obind].
  - destruct (N.eqb_spec cur 0) as [->|N0]; [reflexivity|].
    destruct (N.ltb_spec cur 16777214).
    + change (16777214 <=? 16777214) with true. cbv iota. cbn [obind]. change (16777214 - 16777214) with 0.
      replace (0 + cur <? 4294967296) with true by lia. f_equal. rewrite <- (Z_mod_plus_full _ 1). rewrite Z.mod_small; lia.
    + assert (cur = 16777215) by lia. subst cur. reflexivity.
  - replace (last + 1 <? 4294967296) with true by lia. cbn [obind].
    destruct (N.eqb_spec cur (last + 1)) as [->|NS].
    + f_equal. replace (Z.of_N (last + 1) - Z.of_N last - 1)%Z with 0%Z by lia. reflexivity.
    + destruct (N.ltb_spec cur last).
      * replace (last <=? 16777214) with true by lia. cbn [obind]. replace (16777214 - last + cur <? 4294967296) with true by lia.
        f_equal. rewrite <- (Z_mod_plus_full _ 1). rewrite Z.mod_small; lia.
      * replace (last <=? cur) with true by lia. cbn [obind]. replace (1 <=? cur - last) with true by lia.
        f_equal. rewrite Z.mod_small; lia.
Qed.
Lemma missing_frames_max : forall ovf cur, cur < 16777216 ->
  missing_frames ovf cur 16777215 =
    if cur =? 16777215 then Val 16777214
    else if ovf then Panic else Val (if cur =? 0 then 4294967295 else cur - 1).
Proof.
  intros ovf cur Hc. unfold missing_frames, add_w, sub_w. change COUNTER_MAX with 16777214. change (2 ^ 32) with 4294967296.
  destruct (N.eqb_spec cur 16777215); [reflexivity|].
  change (16777215 =? 16777214) with false. cbv iota. change (16777215 + 1 <? 4294967296) with true. cbv iota. cbn [obind].
  replace (cur =? 16777215 + 1) with false by lia. replace (cur <? 16777215) with true by lia.
  change (16777215 <=? 16777214) with false. cbv iota. destruct ovf; [reflexivity|]. cbn [obind].
  change (16777214 + 4294967296 - 16777215) with 4294967295.
  destruct (N.eqb_spec cur 0) as [->|]; [reflexivity|].
  replace (4294967295 + cur <? 4294967296) with false by lia. f_equal.
  replace (4294967295 + cur) with (cur - 1 + 1 * 4294967296) by lia. rewrite N.mod_add by lia. apply N.mod_small. lia.
Qed.

(* ---- frame_decoder ---- *)
Definition vcid_of (f : frame) : N := v_vcid (f_header f).
Definition counter_of (f : frame) : N := v_counter (f_header f).
(* the counter of the last frame of virtual channel v *)
Definition last_counter (v : N) (fs : list frame) : option N :=
  match rev (filter (fun f => vcid_of f =? v) fs) with [] => None | f :: _ => Some (counter_of f) end.
Lemma last_counter_snoc : forall v fs f, last_counter v (fs ++ [f]) = if vcid_of f =? v then Some (counter_of f) else last_counter v fs.
Proof.
  intros. unfold last_counter. rewrite filter_app. cbn [filter]. destruct (vcid_of f =? v).
  - rewrite rev_app_distr. reflexivity.
  - rewrite app_nil_r. reflexivity.
Qed.

Definition missing_rule (ovf : bool) (before : list frame) (f : frame) : Prop :=
  if vcid_of f =? 63 then f_missing f = 0
  else match last_counter (vcid_of f) before with
       | None => f_missing f = 0
       | Some last => missing_frames ovf (counter_of f) last = Val (f_missing f)
       end.
Definition frame_of (c : block) (f : frame) : Prop :=
  f_data f = bl_data c /\ vcdu_decode (bl_data c) = Val (Some (f_header f)) /\ f_integrity f = None.

Inductive decoded (ovf : bool) : list frame -> list block -> list frame -> Prop :=
| dec_end : forall before, decoded ovf before [] []
| dec_bad : forall before c rest, vcdu_decode (bl_data c) = Val None -> decoded ovf before (c :: rest) []
| dec_frame : forall before c rest f fs, frame_of c f -> missing_rule ovf before f ->
    decoded ovf (before ++ [f]) rest fs -> decoded ovf before (c :: rest) (f :: fs).

Definition counters_are (m : amap N) (before : list frame) : Prop := forall v, aget v m = last_counter v before.

Lemma decoded_iff : forall ovf cadus before m frames, counters_are m before ->
  (yields (fdec_next ovf) (mkFdec m cadus) frames <-> decoded ovf before cadus frames).
Proof.
  intro ovf. induction cadus as [|c rest IH]; intros before m frames HC.
  - split; intro H; inversion H; subst; try discriminate; [constructor|].
    eapply yields_nil. reflexivity.
  - destruct (vcdu_decode_total (bl_data c)) as [[h|] E].
    + assert (STEP : forall miss, missing_rule ovf before (mkFrame h miss None (bl_data c)) ->
        fdec_next ovf (mkFdec m (c :: rest)) = Val (Some (mkFrame h miss None (bl_data c)), mkFdec (aset (v_vcid h) (v_counter h) m) rest)).
      { intros miss MR. unfold fdec_next. cbn [fd_cadus fd_counters]. rewrite E. cbn [obind].
        unfold missing_rule, vcid_of, counter_of in MR. cbn [f_header f_missing] in MR. change VCID_FILL with 63. rewrite HC.
        destruct (v_vcid h =? 63); cbn [negb]; [subst miss; reflexivity|].
        destruct (last_counter (v_vcid h) before) as [l|]; [rewrite MR; reflexivity|subst miss; reflexivity]. }
      assert (CN : forall miss, counters_are (aset (v_vcid h) (v_counter h) m) (before ++ [mkFrame h miss None (bl_data c)])).
      { intros miss v. rewrite last_counter_snoc. unfold vcid_of, counter_of. cbn [f_header]. rewrite aget_aset, HC.
        rewrite (N.eqb_sym (v_vcid h) v). reflexivity. }
      split; intro H.
      * assert (exists miss, missing_rule ovf before (mkFrame h miss None (bl_data c))) as [miss MR].
        { unfold missing_rule, vcid_of, counter_of. cbn [f_header f_missing].
          destruct (v_vcid h =? 63) eqn:EF; [exists 0; reflexivity|].
          destruct (last_counter (v_vcid h) before) as [l|] eqn:EL; [|exists 0; reflexivity].
          destruct (missing_frames ovf (v_counter h) l) as [mm|] eqn:EM; [exists mm; reflexivity|].
          exfalso. assert (P : fdec_next ovf (mkFdec m (c :: rest)) = Panic).
          { unfold fdec_next. cbn [fd_cadus fd_counters]. rewrite E. cbn [obind]. change VCID_FILL with 63. rewrite EF. cbn [negb]. rewrite HC, EL, EM. reflexivity. }
          inversion H; congruence. }
        specialize (STEP miss MR). inversion H as [? ? E1|? s' a items E1 Y]; subst; rewrite STEP in E1; [discriminate|].
        injection E1 as <- <-. apply dec_frame.
        -- repeat split; assumption.
        -- exact MR.
        -- eapply IH; [apply CN|exact Y].
      * inversion H as [|? ? ? E1|? ? ? f fs (F1 & F2 & F3) MR D]; subst; [congruence|].
        destruct f as [fh fm fi fd]. cbn [f_data f_header f_integrity] in *. subst. rewrite E in F2. injection F2 as <-.
        eapply yields_cons; [apply STEP; exact MR|]. eapply IH; [apply CN|exact D].
    + assert (STEP : fdec_next ovf (mkFdec m (c :: rest)) = Val (None, mkFdec m rest)).
      { unfold fdec_next. cbn [fd_cadus]. rewrite E. reflexivity. }
      split; intro H.
      * inversion H as [? ? E1|? ? ? ? E1]; subst; [apply dec_bad; exact E|congruence].
      * inversion H as [|? ? ? E1|? ? ? f fs (F1 & F2 & F3) MR D]; subst; [|congruence].
        eapply yields_nil. exact STEP.
Qed.

(* whether it runs into the arithmetic overflow *)
Lemma decoded_total : forall ovf cadus before, Forall (fun c => bytes_ok (bl_data c)) cadus ->
  (forall v l, last_counter v before = Some l -> l < 16777216 /\ (ovf = true -> l <> 16777215 \/ v = 63)) ->
  (ovf = true -> Forall (fun c => forall h, vcdu_decode (bl_data c) = Val (Some h) -> v_counter h <> 16777215 \/ v_vcid h = 63) cadus) ->
  exists frames, decoded ovf before cadus frames.
Proof.
  intro ovf. induction cadus as [|c rest IH]; intros before HB HL HO.
  - exists []. constructor.
  - inversion HB as [|? ? HB1 HB2]; subst.
    destruct (vcdu_decode_total (bl_data c)) as [[h|] E]; [|exists []; apply dec_bad; exact E].
    assert (CB := vcdu_counter_bound _ _ HB1 E). change (2 ^ 24) with 16777216 in CB.
    assert (exists miss, missing_rule ovf before (mkFrame h miss None (bl_data c))) as [miss MR].
    { unfold missing_rule, vcid_of, counter_of. cbn [f_header f_missing].
      destruct (v_vcid h =? 63) eqn:EF; [exists 0; reflexivity|].
      destruct (last_counter (v_vcid h) before) as [l|] eqn:EL; [|exists 0; reflexivity].
      destruct (HL _ _ EL) as [L1 L2]. destruct (N.eq_dec l 16777215) as [->|NL].
      - destruct ovf.
        + destruct (L2 eq_refl) as [X|X]; [congruence|]. rewrite X in EF. discriminate.
        + rewrite missing_frames_max by exact CB. destruct (v_counter h =? 16777215); eexists; reflexivity.
      - rewrite missing_frames_spec by lia. eexists; reflexivity. }
    destruct (IH (before ++ [mkFrame h miss None (bl_data c)]) HB2) as [fs D].
    + intros v l EL. rewrite last_counter_snoc in EL. unfold vcid_of, counter_of in EL. cbn [f_header] in EL.
      destruct (N.eqb_spec (v_vcid h) v) as [EV|EV]; [|apply HL; exact EL].
      injection EL as <-. split; [exact CB|]. intro EO. specialize (HO EO). inversion HO as [|? ? H1 H2]; subst. apply H1. exact E.
    + intro EO. specialize (HO EO). inversion HO; subst. assumption.
    + eexists. apply dec_frame with (f := mkFrame h miss None (bl_data c)); [repeat split; exact E|exact MR|exact D].
Qed.

(* a panicking run has yielded the frames of the CADUs before *)
Lemma panics_prefix : forall ovf cadus m frames, panics_after (fdec_next ovf) (mkFdec m cadus) frames ->
  yields (fdec_next ovf) (mkFdec m (firstn (length frames) cadus)) frames.
Proof.
  intro ovf. induction cadus as [|c rest IH]; intros m frames H.
  - inversion H; subst; discriminate.
  - inversion H as [? E|? s' a items E P]; subst.
    + eapply yields_nil. reflexivity.
    + cbn [length firstn]. unfold fdec_next in E. cbn [fd_cadus fd_counters] in E.
      destruct (vcdu_decode (bl_data c)) as [[h|]|] eqn:D; cbn [obind] in E; try discriminate.
      destruct (if negb (v_vcid h =? VCID_FILL) then _ else _) as [ms|] eqn:M; cbn [obind] in E; [|discriminate].
      injection E as <- <-. eapply yields_cons; [|apply IH; exact P].
      unfold fdec_next. cbn [fd_cadus fd_counters]. rewrite D. cbn [obind]. rewrite M. reflexivity.
Qed.
(* when the next call panics *)
Definition rollover (ovf : bool) (before : list frame) (c : block) : Prop :=
  ovf = true /\ exists h, vcdu_decode (bl_data c) = Val (Some h) /\ v_vcid h <> 63 /\
    last_counter (v_vcid h) before = Some 16777215 /\ v_counter h <> 16777215.
Definition bounded (before : list frame) : Prop := forall v l, last_counter v before = Some l -> l < 16777216.
Lemma panics_iff : forall ovf cadus m before frames, counters_are m before -> bounded before ->
  Forall (fun c => bytes_ok (bl_data c)) cadus ->
  (panics_after (fdec_next ovf) (mkFdec m cadus) frames <->
   yields (fdec_next ovf) (mkFdec m (firstn (length frames) cadus)) frames /\
   exists c, nth_error cadus (length frames) = Some c /\ rollover ovf (before ++ frames) c).
Proof.
  intro ovf. induction cadus as [|c rest IH]; intros m before frames HC HBD HB.
  - split.
    + intro H. inversion H; discriminate.
    + intros (_ & c & E & _). destruct (length frames); discriminate.
  - inversion HB as [|? ? HB1 HB2]; subst.
    assert (NX : forall h, vcdu_decode (bl_data c) = Val (Some h) ->
       (fdec_next ovf (mkFdec m (c :: rest)) = Panic <-> rollover ovf before c)).
    { intros h E. assert (CB := vcdu_counter_bound _ _ HB1 E). change (2 ^ 24) with 16777216 in CB.
      unfold fdec_next, rollover. cbn [fd_cadus fd_counters]. rewrite E. cbn [obind]. change VCID_FILL with 63. rewrite HC.
      destruct (N.eqb_spec (v_vcid h) 63) as [EF|EF]; cbn [negb].
      { split; [discriminate|]. intros (_ & h' & E' & X & _). injection E' as <-. contradiction. }
      destruct (last_counter (v_vcid h) before) as [l|] eqn:EL.
      2:{ split; [discriminate|]. intros (_ & h' & E' & _ & X & _). injection E' as <-. congruence. }
      assert (LB := HBD _ _ EL). destruct (N.eq_dec l 16777215) as [->|NL].
      - rewrite missing_frames_max by exact CB. destruct (N.eqb_spec (v_counter h) 16777215) as [EM|EM]; cbn [obind].
        + split; [discriminate|]. intros (_ & h' & E' & _ & _ & X). injection E' as <-. contradiction.
        + destruct ovf; cbn [obind].
          * split; [|reflexivity]. intros _. split; [reflexivity|]. exists h. auto.
          * split; [discriminate|]. intros [X _]. discriminate.
      - rewrite missing_frames_spec by lia. cbn [obind]. split; [discriminate|]. intros (_ & h' & E' & _ & X & _). injection E' as <-. congruence. }
    destruct frames as [|f fs].
    + cbn [length firstn nth_error]. rewrite app_nil_r. split.
      * intro H. inversion H as [? E|]; subst. split; [eapply yields_nil; reflexivity|]. exists c. split; [reflexivity|].
        destruct (vcdu_decode_total (bl_data c)) as [[h|] D]; [eapply NX; eassumption|].
        unfold fdec_next in E. cbn [fd_cadus] in E. rewrite D in E. discriminate.
      * intros (_ & c' & E & R). injection E as <-. assert (R' := R). destruct R' as (_ & h & D & _). apply panics_nil. eapply NX; eassumption.
    + cbn [length firstn nth_error]. replace (before ++ f :: fs) with ((before ++ [f]) ++ fs) by (rewrite <- app_assoc; reflexivity).
      assert (ST : forall s', fdec_next ovf (mkFdec m (c :: rest)) = Val (Some f, s') ->
         exists m', s' = mkFdec m' rest /\ counters_are m' (before ++ [f]) /\ bounded (before ++ [f])).
      { intros s' E. unfold fdec_next in E. cbn [fd_cadus fd_counters] in E.
        destruct (vcdu_decode (bl_data c)) as [[h|]|] eqn:D; cbn [obind] in E; try discriminate.
        destruct (if negb (v_vcid h =? VCID_FILL) then _ else _) as [ms|] eqn:M; cbn [obind] in E; [|discriminate].
        injection E as <- <-. eexists. split; [reflexivity|]. split.
        - intro v. rewrite last_counter_snoc. unfold vcid_of, counter_of. cbn [f_header]. rewrite aget_aset, HC.
          rewrite (N.eqb_sym (v_vcid h) v). reflexivity.
        - intros v l. rewrite last_counter_snoc. unfold vcid_of, counter_of. cbn [f_header].
          destruct (v_vcid h =? v); [|apply HBD]. intro E. injection E as <-. apply (vcdu_counter_bound _ _ HB1 D). }
      assert (SAME : forall l o s', fdec_next ovf (mkFdec m (c :: rest)) = Val (Some o, mkFdec s' rest) -> fdec_next ovf (mkFdec m (c :: l)) = Val (Some o, mkFdec s' l)).
      { intros l o s' E. unfold fdec_next in *. cbn [fd_cadus fd_counters] in *.
        destruct (vcdu_decode (bl_data c)) as [[h|]|]; cbn [obind] in *; try discriminate.
        destruct (if negb (v_vcid h =? VCID_FILL) then _ else _); cbn [obind] in *; [|discriminate]. injection E as <- <-. reflexivity. }
      assert (SAME' : forall l o s', fdec_next ovf (mkFdec m (c :: l)) = Val (Some o, s') -> fdec_next ovf (mkFdec m (c :: rest)) = Val (Some o, mkFdec (fd_counters s') rest) /\ s' = mkFdec (fd_counters s') l).
      { intros l o s' E. unfold fdec_next in *. cbn [fd_cadus fd_counters] in *.
        destruct (vcdu_decode (bl_data c)) as [[h|]|]; cbn [obind] in *; try discriminate.
        destruct (if negb (v_vcid h =? VCID_FILL) then _ else _); cbn [obind] in *; [|discriminate]. injection E as <- <-. split; reflexivity. }
      split.
      * intro H. inversion H as [|? s' ? ? E P]; subst. destruct (ST _ E) as (m' & -> & HC' & HB').
        destruct (proj1 (IH m' _ fs HC' HB' HB2) P) as [Y R]. split; [|exact R]. eapply yields_cons; [|exact Y]. apply SAME. exact E.
      * intros (Y & R). inversion Y as [|? s' ? ? E Y']; subst. destruct (SAME' _ _ _ E) as [E2 ES]. destruct (ST _ E2) as (m' & EM & HC' & HB').
        injection EM as EM. eapply panics_cons; [exact E2|]. rewrite EM. apply (IH m' _ fs HC' HB' HB2). split; [|exact R].
        rewrite <- EM, <- ES. exact Y'.
Qed.
Lemma yields_or_panics : forall ovf cadus m, (exists frames, yields (fdec_next ovf) (mkFdec m cadus) frames) \/ exists frames, panics_after (fdec_next ovf) (mkFdec m cadus) frames.
Proof.
  intro ovf. induction cadus as [|c rest IH]; intro m.
  - left. exists []. eapply yields_nil. reflexivity.
  - destruct (fdec_next ovf (mkFdec m (c :: rest))) as [[[f|] s']|] eqn:E.
    + assert (s' = mkFdec (fd_counters s') rest).
      { unfold fdec_next in E. cbn [fd_cadus fd_counters] in E. destruct (vcdu_decode (bl_data c)) as [[h|]|]; cbn [obind] in E; try discriminate.
        destruct (if negb (v_vcid h =? VCID_FILL) then _ else _); cbn [obind] in E; [|discriminate]. injection E as _ <-. reflexivity. }
      rewrite H in E. destruct (IH (fd_counters s')) as [[fs Y]|[fs Y]]; [left|right]; exists (f :: fs); econstructor; eassumption.
    + left. exists []. eapply yields_nil. exact E.
    + right. exists []. apply panics_nil. exact E.
Qed.

(* ---- M_PDU ---- *)
Lemma frame_mpdu_spec : forall f izone trailer, bytes_ok (f_data f) ->
  frame_mpdu f izone trailer =
    if (6 + izone + trailer <=? length (f_data f))%nat then
      let zone := firstn (length (f_data f) - trailer - (6 + izone)) (skipn (6 + izone) (f_data f)) in
      if (length zone <? 2)%nat then Val None
      else Val (Some (mkMpdu (field zone 5 11) zone))
    else Panic.
Proof.
  intros f izone trailer Hb. unfold frame_mpdu. change VCDU_LEN with 6%nat.
  destruct (6 + izone + trailer <=? length (f_data f))%nat eqn:E.
  - apply Nat.leb_le in E. rewrite usub_ok by lia. cbn [obind]. rewrite slice_ok by lia. cbn [obind].
    set (zone := firstn _ _). unfold mpdu_decode. destruct (length zone <? 2)%nat eqn:L; [reflexivity|].
    apply Nat.ltb_ge in L. assert (Hz : bytes_ok zone) by (apply bytes_ok_firstn, bytes_ok_skipn; exact Hb). clearbody zone.
    destruct zone as [|a [|b zone]]; [cbn in L; lia|cbn in L; lia|]. cbn [get nth_error obind].
    unfold bytes_ok in Hz. repeat match goal with H : Forall _ (_ :: _) |- _ => inversion H; subst; clear H end.
    do 3 f_equal. rewrite field2 by (assumption || lia). rewrite (and_mask _ 11 0x7ff eq_refl).
    change (2 ^ N.of_nat (16 - 5 - 11)) with 1. rewrite N.div_1_r. reflexivity.
  - apply Nat.leb_gt in E. destruct (Nat.le_gt_cases trailer (length (f_data f))).
    + rewrite usub_ok by lia. cbn [obind]. rewrite slice_panic by lia. reflexivity.
    + rewrite usub_panic by lia. reflexivity.
Qed.
