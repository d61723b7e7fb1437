From Verif Require Import Base S_Bits S_Packet S_Pn S_Sync S_Frame S_FramePackets S_ReedSolomon S_Pipeline
  M_Reader M_Packet M_Bytes M_Sync M_Pn M_Frame M_FramePackets M_ReedSolomon M_RsPipeline M_Pipeline
  L_Base L_Bits L_Packet L_Pn L_Frame L_FramePackets L_FramePackets2 L_ReedSolomon L_RsPipeline P_Pn P_Sync P_FramePackets P_ReedSolomon P_RsPipeline.
Open Scope nat_scope.

(* the frames that reach the later stages are those of the first CADUs *)
Lemma decoded_prefix : forall ovf rs blocks frames, decoded_frames ovf rs blocks frames ->
  exists first rest, blocks = first ++ rest /\ yields (fdec_next ovf) (frame_decoder first) frames.
Proof.
  intros ovf rs blocks frames [Y|[_ P]].
  - exists blocks, []. rewrite app_nil_r. auto.
  - exists (firstn (length frames) blocks), (skipn (length frames) blocks). split; [symmetry; apply firstn_skipn|]. apply panics_prefix. exact P.
Qed.

(* ---- derandomization ---- *)
Lemma derandomized : forall cw blk, bytes_ok cw -> randomized cw blk -> derandomize_bytes blk = cw.
Proof.
  intros cw blk Hc (Hb & HL & HN). destruct (C30_derandomize_length_bytes blk) as [L B].
  apply bits_inj; [apply B; exact Hb|exact Hc|]. apply nth_ext with (d := false) (d' := false).
  - rewrite !bits_length. lia.
  - intros n Hn. rewrite bits_length, L in Hn. rewrite C30_derandomize_bits by lia. rewrite HN by lia.
    destruct (nth n (bits cw) false), (pn n); reflexivity.
Qed.

(* ---- headers ---- *)
Lemma aos_header_length : forall scid v c sg, length (aos_header scid v c sg) = 6.
Proof. reflexivity. Qed.
Lemma aos_header_bytes : forall scid v c sg, (scid < 256)%N -> (v < 64)%N -> (c < 2 ^ 24)%N -> (sg < 256)%N -> bytes_ok (aos_header scid v c sg).
Proof.
  intros scid v c sg H1 H2 H3 H4. unfold aos_header. change (2 ^ 14)%N with 16384%N. change (2 ^ 6)%N with 64%N. change (2 ^ 24)%N with 16777216%N in H3.
  repeat constructor; lia.
Qed.
Lemma aos_header_decode : forall scid v c sg rest, (scid < 256)%N -> (v < 64)%N -> (c < 2 ^ 24)%N -> (sg < 256)%N -> bytes_ok rest ->
  vcdu_decode (aos_header scid v c sg ++ rest) = Val (Some (mkVcdu 1 scid v c)).
Proof.
  intros scid v c sg rest H1 H2 H3 H4 Hr. assert (HB := aos_header_bytes scid v c sg H1 H2 H3 H4).
  rewrite vcdu_decode_spec; [|apply bytes_ok_app; split; assumption|rewrite app_length, aos_header_length; lia].
  unfold aos_header in *. set (w := (2 ^ 14 + scid * 2 ^ 6 + v)%N) in *. cbn [app].
  unfold bytes_ok in HB. repeat match goal with H : Forall _ (_ :: _) |- _ => inversion H; subst; clear H end.
  assert (W : be16 (w / 256) (w mod 256) = w) by (unfold be16; lia).
  assert (F0 : field (w / 256 :: w mod 256 :: c / 65536 :: c / 256 mod 256 :: c mod 256 :: sg :: rest)%N 0 2 = 1%N).
  { rewrite field2 by (assumption || lia). rewrite W. change (2 ^ N.of_nat (16 - 0 - 2))%N with 16384%N. change (2 ^ N.of_nat 2)%N with 4%N.
    unfold w. change (2 ^ 14)%N with 16384%N. change (2 ^ 6)%N with 64%N. lia. }
  rewrite F0. do 2 f_equal. f_equal.
  - rewrite field2 by (assumption || lia). rewrite W. change (2 ^ N.of_nat (16 - 2 - 8))%N with 64%N. change (2 ^ N.of_nat 8)%N with 256%N.
    unfold w. change (2 ^ 14)%N with 16384%N. change (2 ^ 6)%N with 64%N. lia.
  - rewrite field2 by (assumption || lia). rewrite W. change (2 ^ N.of_nat (16 - 10 - 6))%N with 1%N. change (2 ^ N.of_nat 6)%N with 64%N.
    unfold w. change (2 ^ 14)%N with 16384%N. change (2 ^ 6)%N with 64%N. lia.
  - change 16%nat with (16 + 0)%nat at 1. rewrite field_skip2, field3 by assumption. unfold be32. change (2 ^ 24)%N with 16777216%N in H3. lia.
Qed.

(* ---- the zones of a frame ---- *)
Lemma aos_frame_zones : forall scid v c sg iz spare ptr payload tr f, f_data f = aos_frame scid v c sg iz spare ptr payload tr ->
  (spare < 32)%N -> ptr < 2048 ->
  payload_of (length iz) (length tr) f = payload /\ pointer_of (length iz) (length tr) f = ptr /\ long_enough (length iz) (length tr) f.
Proof.
  intros scid v c sg iz spare ptr payload tr f E Hs Hp.
  assert (Z : zone_of (length iz) (length tr) f = [spare * 8 + N.of_nat ptr / 256; N.of_nat ptr mod 256]%N ++ payload).
  { unfold zone_of. rewrite E. unfold aos_frame. rewrite !app_assoc. rewrite app_length, Nat.add_sub. rewrite firstn_app_exact.
    rewrite <- app_assoc. replace (6 + length iz) with (length (aos_header scid v c sg ++ iz)) by (rewrite app_length; reflexivity).
    apply skipn_app_exact. }
  split; [unfold payload_of; rewrite Z; reflexivity|]. split.
  - unfold pointer_of. rewrite Z. cbn [app]. rewrite field2 by lia. unfold be16.
    change (2 ^ N.of_nat (16 - 5 - 11))%N with 1%N. change (2 ^ N.of_nat 11)%N with 2048%N. lia.
  - unfold long_enough. rewrite E. unfold aos_frame. rewrite !app_length. cbn [length]. rewrite aos_header_length. lia.
Qed.
Lemma pointer_bound : forall ws a n ptr, n <= 2046 -> pointer_correct ws a n ptr -> ptr < 2048.
Proof. intros ws a n ptr Hn [(x & _ & H & _ & ->)|[_ ->]]; lia. Qed.

Lemma stream_bytes : forall ws, Forall wire_ok ws -> bytes_ok (stream ws).
Proof. exact concat_wire_ok. Qed.
Lemma aos_frame_bytes : forall scid v c sg iz spare ptr payload tr, (scid < 256)%N -> (v < 64)%N -> (c < 2 ^ 24)%N -> (sg < 256)%N ->
  (spare < 32)%N -> ptr < 2048 -> bytes_ok iz -> bytes_ok payload -> bytes_ok tr -> bytes_ok (aos_frame scid v c sg iz spare ptr payload tr).
Proof.
  intros. unfold aos_frame. repeat (apply bytes_ok_app; split); try assumption; [apply aos_header_bytes; assumption|].
  repeat constructor; lia.
Qed.

(* ---- Reed-Solomon on a block the codec recovers ---- *)
Lemma recovered : forall k o cw frm check, 1 <= ro_interleave o -> ro_virtual_fill o <= 223 * ro_interleave o ->
  length check = 32 * ro_interleave o -> length cw = length (frm ++ check) -> length cw + ro_virtual_fill o = 255 * ro_interleave o ->
  recovers k o cw (frm ++ check) ->
  exists i, (i = IOk \/ i = ICorrected) /\ perform k (rs_of_opts o) cw = Val (Ok (i, frm)).
Proof.
  intros k o cw frm check HI HV HC HL HR HRec. set (c := rs_of_opts o). set (il := ro_interleave o) in *. set (vf := ro_virtual_fill o) in *.
  assert (RL : right_length c cw) by exact HR.
  set (ws := codewords il (filled c cw)).
  assert (HW : forall w, In w ws -> exists i, i < il /\ w = codeword il (filled c cw) i).
  { intros w I. unfold ws, codewords in I. apply in_map_iff in I. destruct I as (i & <- & Ii). apply in_seq in Ii. exists i. split; [lia|reflexivity]. }
  assert (HA : Forall (answers k) ws).
  { apply Forall_forall. intros w I. destruct (HW w I) as (i & Hi & ->). destruct (HRec i Hi) as (_ & st & m & E & _ & LM & _).
    exists m. change (filled c cw) with (repeat 0%N vf ++ cw). fold il vf in E. rewrite E. auto. }
  assert (HS : Forall (fun w => ~ stops k c w) ws).
  { apply Forall_forall. intros w I. destruct (HW w I) as (i & Hi & ->). destruct (HRec i Hi) as (NE & st & m & E & NU & _ & _).
    intros [[X1 X2]|X].
    - assert (Y : has_errors k (codeword il (filled c cw) i) = false) by (apply NE; exact X1). congruence.
    - apply NU. unfold is_uncorrectable in X. change (filled c cw) with (repeat 0%N vf ++ cw) in X. fold il vf in E. rewrite E in X. exact X. }
  assert (P := perform_all k c cw RL ltac:(change (rs_interleave c) with il; lia) eq_refl HA HS). cbv zeta in P.
  change (rs_interleave c) with il in P. change (rs_virtual_fill c) with vf in P. change (rs_remove_parity c) with true in P. cbv iota in P.
  rewrite firstn_length, interleaved_length in P. replace (vf <=? Nat.min (223 * il) (255 * il)) with true in P by (symmetry; apply Nat.leb_le; lia).
  fold ws in P.
  assert (DATA : skipn vf (firstn (223 * il) (interleaved il (map (message_of k) ws))) = frm).
  { rewrite app_length in HL.
    assert (NS : forall (l : list N) n i, nth i (skipn n l) 0%N = nth (n + i) l 0%N).
    { induction l as [|x l IH]; intros [|n] i; cbn; try reflexivity; [destruct i; reflexivity|apply IH]. }
    assert (NF : forall (l : list N) n i, i < n -> nth i (firstn n l) 0%N = nth i l 0%N).
    { induction l as [|x l IH]; intros [|n] [|i] H; cbn; try reflexivity; try lia. apply IH. lia. }
    apply nth_ext with (d := 0%N) (d' := 0%N); [rewrite skipn_length, firstn_length, interleaved_length; lia|].
    rewrite skipn_length, firstn_length, interleaved_length. intros j Hj.
    rewrite NS, NF by lia. rewrite interleaved_nth by lia.
    assert (MU : (vf + j) mod il < il) by (apply Nat.mod_upper_bound; lia).
    assert (DU : (vf + j) / il < 223) by (apply Nat.div_lt_upper_bound; lia).
    rewrite (nth_indep _ [] (message_of k [])) by (rewrite map_length; unfold ws; rewrite codewords_length; exact MU).
    rewrite map_nth. unfold ws, codewords. rewrite nth_map_seq by exact MU.
    destruct (HRec _ MU) as (_ & st & m & E & _ & LM & FM). unfold message_of.
    change (filled c cw) with (repeat 0%N vf ++ cw). fold il vf in E, FM. rewrite E. cbn [snd].
    rewrite <- (NF m 223) by exact DU. rewrite FM. rewrite NF by exact DU. unfold codeword. rewrite nth_map_seq by lia.
    assert (DM := Nat.div_mod (vf + j) il ltac:(lia)).
    replace ((vf + j) mod il + (vf + j) / il * il) with (vf + j) by lia.
    rewrite app_nth2 by (rewrite repeat_length; lia). rewrite repeat_length. replace (vf + j - vf) with j by lia.
    apply app_nth1. lia. }
  rewrite DATA in P. eexists. split; [|exact P]. destruct (_ =? 0); auto.
Qed.

(* ---- the frame decoder on a link ---- *)
Section Link.
Variables (izone trailer : nat) (ovf : bool) (k : codec) (p : pipeline) (ws : N -> list wire_packet).
Hypothesis HWS : forall v, Forall wire_ok (ws v).

(* what arrives of unit u, derandomized *)
Definition unit_block (u : sent) (b : block) : Prop :=
  (s_vcid u < 64)%N /\ bytes_ok (bl_data b) /\ length (bl_data b) = pl_block_length p /\ arrives k p u (bl_data b).
(* the frame decoded of it *)
Definition unit_frame (u : sent) (f : frame) : Prop :=
  v_vcid (f_header f) = s_vcid u /\ f_missing f = 0%N /\ f_integrity f = None /\
  bytes_ok (f_data f) /\ length (f_data f) = pl_block_length p /\ arrives k p u (f_data f).

Lemma unit_header : forall u b, unit_block u b -> (s_vcid u <> 63)%N ->
  forall c a rest e, sends izone trailer (s_vcid u) (ws (s_vcid u)) c a (s_frame u :: rest) e ->
  (c < 2 ^ 24)%N /\ exists scid, vcdu_decode (bl_data b) = Val (Some (mkVcdu 1 scid (s_vcid u) c)).
Proof.
  intros u b (HV & Hb & HL & HA) NF c a rest e HS. inversion HS as [|? ? n scid sg iz spare ptr tr ? ? H1 H2 H3 H4 H5 H6 H7 H8 H9 H10 H11 H12]; subst.
  match goal with X : aos_frame _ _ _ _ _ _ _ _ _ = s_frame u |- _ => rename X into EF end.
  split; [assumption|]. exists scid. unfold arrives in HA. destruct (N.eqb_spec (s_vcid u) 63); [contradiction|].
  assert (X : firstn 6 (bl_data b) = firstn 6 (s_frame u)).
  { destruct (pl_rs p); [|rewrite HA; reflexivity]. destruct HA as (check & _ & _ & _ & _ & X). exact X. }
  rewrite <- EF in X. unfold aos_frame in X.
  rewrite <- (aos_header_length scid (s_vcid u) c sg) in X at 2. rewrite firstn_app_exact in X.
  rewrite <- (firstn_skipn 6 (bl_data b)). rewrite X. apply aos_header_decode; try assumption. apply bytes_ok_skipn. exact Hb.
Qed.

Lemma decode_units : forall us bs, Forall2 unit_block us bs -> forall before c a e,
  (forall v, v <> 63%N -> sends izone trailer v (ws v) (c v) (a v) (map s_frame (filter (on_channel v) us)) (e v)) ->
  (forall v, v <> 63%N -> last_counter v before = None \/ (1 <= c v)%N /\ last_counter v before = Some (c v - 1)%N) ->
  exists fs, decoded ovf before bs fs /\ Forall2 unit_frame us fs.
Proof.
  induction 1 as [|u b us bs UB _ IH]; intros before c a e HS HL.
  - exists []. split; constructor.
  - destruct (N.eq_dec (s_vcid u) 63) as [EF|NF].
    + assert (X := proj2 (proj2 (proj2 UB))). unfold arrives in X. rewrite EF in X. cbn [N.eqb Pos.eqb] in X.
      destruct X as (scid & cc & sg & rest & H1 & H2 & H3 & E).
      assert (D : vcdu_decode (bl_data b) = Val (Some (mkVcdu 1 scid 63 cc))).
      { rewrite E. apply aos_header_decode; try assumption; try lia. destruct UB as (_ & B & _). rewrite E in B. apply bytes_ok_app in B. tauto. }
      set (f := mkFrame (mkVcdu 1 scid 63 cc) 0 None (bl_data b)).
      destruct (IH (before ++ [f]) c a e) as (fs & DD & FF).
      * intros v Hv. specialize (HS v Hv). cbn [filter] in HS. unfold on_channel at 1 in HS. rewrite EF in HS.
        destruct (N.eqb_spec 63 v); [congruence|exact HS].
      * intros v Hv. rewrite last_counter_snoc. unfold vcid_of. cbn [f f_header v_vcid]. destruct (N.eqb_spec 63 v); [congruence|apply HL; exact Hv].
      * exists (f :: fs). split.
        -- apply dec_frame; [repeat split; exact D|reflexivity|exact DD].
        -- constructor; [|exact FF]. destruct UB as (_ & B1 & B2 & B3). unfold unit_frame. cbn [f f_header f_missing f_integrity f_data v_vcid]. rewrite EF. repeat (split; [reflexivity || assumption|]). assumption.
    + assert (HU := HS (s_vcid u) NF). cbn [filter] in HU. unfold on_channel at 1 in HU. rewrite N.eqb_refl in HU. cbn [map] in HU.
      destruct (unit_header u b UB NF _ _ _ _ HU) as [HC (scid & D)].
      set (f := mkFrame (mkVcdu 1 scid (s_vcid u) (c (s_vcid u))) 0 None (bl_data b)).
      assert (MR : missing_rule ovf before f).
      { unfold missing_rule, vcid_of, counter_of. cbn [f f_header f_missing v_vcid v_counter]. destruct (N.eqb_spec (s_vcid u) 63); [contradiction|].
        destruct (HL _ NF) as [->|[H1 ->]]; [reflexivity|]. change (2 ^ 24)%N with 16777216%N in HC. rewrite missing_frames_spec by lia.
        f_equal. replace (Z.of_N (c (s_vcid u)) - Z.of_N (c (s_vcid u) - 1) - 1)%Z with 0%Z by lia. reflexivity. }
      inversion HU as [|? ? n ? ? ? ? ? ? ? ? H1 H2 H3 H4 H5 H6 H7 H8 H9 H10 H11 H12]; subst.
      set (c' := fun v => if (v =? s_vcid u)%N then (c v + 1)%N else c v).
      set (a' := fun v => if (v =? s_vcid u)%N then a v + n else a v).
      destruct (IH (before ++ [f]) c' a' e) as (fs & DD & FF).
      * intros v Hv. unfold c', a'. destruct (N.eqb_spec v (s_vcid u)) as [->|NV]; [exact H12|].
        specialize (HS v Hv). cbn [filter] in HS. unfold on_channel at 1 in HS. destruct (N.eqb_spec (s_vcid u) v); [congruence|exact HS].
      * intros v Hv. rewrite last_counter_snoc. unfold vcid_of, counter_of, c'. cbn [f f_header v_vcid v_counter].
        rewrite (N.eqb_sym (s_vcid u) v). destruct (N.eqb_spec v (s_vcid u)) as [->|NV]; [right|apply HL; exact Hv].
        split; [lia|]. f_equal. lia.
      * exists (f :: fs). split.
        -- apply dec_frame; [repeat split; exact D|exact MR|exact DD].
        -- constructor; [|exact FF]. destruct UB as (_ & B1 & B2 & B3). unfold unit_frame. cbn [f f_header f_missing f_integrity f_data v_vcid]. repeat (split; [reflexivity || assumption|]). assumption.
Qed.

(* ---- the frame after the Reed-Solomon stage ---- *)
Definition unit_out (u : sent) (f : frame) : Prop :=
  v_vcid (f_header f) = s_vcid u /\ f_missing f = 0%N /\ ~ bad_frame f /\
  ((s_vcid u <> 63)%N -> f_data f = s_frame u) /\
  (s_vcid u = 63%N -> bytes_ok (f_data f) /\ length (f_data f) = pl_block_length p).

Lemma unit_no_rs : pl_rs p = None -> forall u f, unit_frame u f -> unit_out u f.
Proof.
  intros E u f (V & M & I & B & L & A). unfold unit_out. repeat (split; [assumption|]). split; [intros [X|X]; congruence|]. split; [|auto].
  intro NF. unfold arrives in A. destruct (N.eqb_spec (s_vcid u) 63); [contradiction|]. rewrite E in A. exact A.
Qed.
Lemma unit_rs : forall o, pl_rs p = Some o -> 1 <= ro_interleave o -> ro_virtual_fill o <= 223 * ro_interleave o ->
  forall u f, unit_frame u f -> exists f', rs_job k (rs_of_opts o) f = Val f' /\ unit_out u f'.
Proof.
  intros o E HI HV u f (V & M & I & B & L & A). unfold rs_job. rewrite V. change VCID_FILL with 63%N.
  unfold arrives in A. destruct (N.eqb_spec (s_vcid u) 63) as [EF|NF]; cbn [negb].
  - exists f. split; [reflexivity|]. unfold unit_out. repeat (split; [assumption|]). split; [intros [X|X]; congruence|]. split; [congruence|auto].
  - rewrite E in A. destruct A as (check & A1 & A2 & A3 & A4 & A5).
    destruct (recovered k o (f_data f) (s_frame u) check HI HV A1 A2 A3 A4) as (i & HIn & EP). rewrite EP. cbn [obind].
    eexists. split; [reflexivity|]. unfold unit_out, bad_frame. cbn [f_header f_missing f_integrity f_data].
    split; [exact V|]. split; [exact M|]. split; [destruct HIn as [-> | ->]; intros [X|X]; discriminate|].
    split; [intros _; destruct HIn as [-> | ->]; reflexivity|congruence].
Qed.

(* ---- the frames of one channel carry its stream ---- *)
Lemma sends_carries : forall v c a frames e, (v < 64)%N -> sends izone trailer v (ws v) c a frames e ->
  forall fs, Forall2 (fun d f => f_data f = d /\ ~ bad_frame f) frames fs -> carries izone trailer (ws v) a fs e.
Proof.
  intros v c a frames e HV H. induction H as [c a|c a n scid sg iz spare ptr tr rest e H1 H2 H3 H4 H5 H6 H7 H8 H9 H10 H11 H12 IH]; intros fs F.
  - inversion F; subst. constructor.
  - inversion F as [|? f ? fs' [FD NB] F']; subst.
    assert (PB := pointer_bound _ _ _ _ H10 H11).
    destruct (aos_frame_zones scid v c sg iz spare ptr _ tr f FD H4 PB) as (Z1 & Z2 & Z3).
    eapply carries_cons with (n := n); try assumption.
    + rewrite FD. apply aos_frame_bytes; try assumption. apply bytes_ok_firstn, bytes_ok_skipn, stream_bytes, HWS.
    + rewrite Z2. exact H11.
    + apply IH. exact F'.
Qed.
Lemma channel_out : forall v us fs, (v <> 63)%N -> Forall2 unit_out us fs ->
  Forall2 (fun d f => f_data f = d /\ ~ bad_frame f) (map s_frame (filter (on_channel v) us)) (filter (is_chan v) fs) /\
  Forall (fun f => f_missing f = 0%N) (filter (is_chan v) fs) /\ Forall (fun f => v_vcid (f_header f) = v) (filter (is_chan v) fs).
Proof.
  intros v us fs NF H. induction H as [|u f us fs (V & M & NB & D & _) _ IH]; [repeat constructor|].
  cbn [filter]. replace (is_chan v f) with (s_vcid u =? v)%N by (unfold is_chan, chan; rewrite V; reflexivity). change (on_channel v u) with (s_vcid u =? v)%N. destruct (N.eqb_spec (s_vcid u) v) as [EV|_]; [|exact IH].
  destruct IH as (A & B & C). cbn [map]. repeat split; constructor; try assumption; [|congruence]. split; [apply D; congruence|exact NB].
Qed.
Lemma sent_ok : forall v c a frames e, (v < 64)%N -> sends izone trailer v (ws v) c a frames e ->
  Forall (fun d => bytes_ok d /\ 6 + izone + 2 + trailer <= length d) frames.
Proof.
  intros v c a frames e HV H. induction H as [|c a n scid sg iz spare ptr tr rest e H1 H2 H3 H4 H5 H6 H7 H8 H9 H10 H11 H12 IH]; constructor; [|exact IH].
  assert (PB := pointer_bound _ _ _ _ H10 H11). split.
  - apply aos_frame_bytes; try assumption. apply bytes_ok_firstn, bytes_ok_skipn, stream_bytes, HWS.
  - unfold aos_frame. rewrite !app_length. cbn [length]. rewrite aos_header_length. lia.
Qed.
Lemma out_frames_ok : forall us fs c a e, Forall (fun u => (s_vcid u < 64)%N) us -> Forall2 unit_out us fs ->
  (forall v, v <> 63%N -> sends izone trailer v (ws v) (c v) (a v) (map s_frame (filter (on_channel v) us)) (e v)) ->
  6 + izone + 2 + trailer <= pl_block_length p ->
  frames_ok izone trailer fs.
Proof.
  intros us fs c a e HV H HS HL. unfold frames_ok. apply Forall_forall. intros f I.
  assert (exists u, In u us /\ unit_out u f) as (u & Iu & (V & M & NB & D & F)).
  { clear -H I. induction H as [|u g us fs U _ IH]; [destruct I|]. destruct I as [<-|I]; [exists u; split; [left; reflexivity|exact U]|].
    destruct (IH I) as (u' & X & Y). exists u'. split; [right; exact X|exact Y]. }
  rewrite Forall_forall in HV. specialize (HV u Iu).
  destruct (N.eq_dec (s_vcid u) 63) as [EF|NF].
  - destruct (F EF) as [F1 F2]. split; [exact F1|unfold long_enough; lia].
  - assert (X := sent_ok _ _ _ _ _ HV (HS _ NF)). rewrite Forall_forall in X. specialize (X (s_frame u)). unfold long_enough. rewrite (D NF).
    apply X. apply in_map. apply filter_In. split; [exact Iu|apply N.eqb_refl].
Qed.
End Link.
