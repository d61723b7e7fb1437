From Verif Require Import Base S_Bits M_Packet M_Bytes M_Sync M_Frame M_FramePackets L_Base L_Bits S_Packet L_Packet L_Frame S_FramePackets.
Open Scope nat_scope.

Lemma carve_det : forall b ps r, carve b ps r -> forall ps' r', carve b ps' r' -> ps = ps' /\ r = r'.
Proof.
  induction 1; intros ps' r' H'; inversion H'; subst; try lia; try contradiction; auto.
  match goal with X : carve (skipn _ _) _ _ |- _ => destruct (IHcarve _ _ X) as [-> ->] end. auto.
Qed.
Lemma tm_dec : forall b, tm_header b \/ ~ tm_header b.
Proof.
  intro b. unfold tm_header. destruct (N.eq_dec (version (spec_header b)) 0), (N.eq_dec (type_flag (spec_header b)) 0); tauto.
Qed.
Lemma carve_total : forall n b, length b <= n -> exists ps r, carve b ps r.
Proof.
  induction n as [n IH] using lt_wf_ind; intros b H.
  destruct (Nat.lt_ge_cases (length b) 6) as [L|L]; [exists [], (Some b); apply carve_short; exact L|].
  destruct (tm_dec b) as [T|T]; [|exists [], None; apply carve_invalid; assumption].
  destruct (Nat.lt_ge_cases (length b) (wire_len b)) as [W|W]; [exists [], (Some b); apply carve_wait; assumption|].
  assert (WG := wire_len_ge b).
  destruct (IH (length (skipn (wire_len b) b)) ltac:(rewrite skipn_length; lia) _ (le_n _)) as (ps & r & C).
  eexists; eexists. eapply carve_packet; eassumption.
Qed.
Lemma carve_bytes_ok : forall b ps r, carve b ps r -> bytes_ok b ->
  Forall (fun p => bytes_ok (p_data p)) ps /\ match r with Some c => bytes_ok c | None => True end.
Proof.
  induction 1; intro Hb; try (split; [constructor|auto; fail]).
  destruct (IHcarve (bytes_ok_skipn _ _ Hb)) as [A B]. split; [|exact B]. constructor; [apply bytes_ok_firstn; exact Hb|exact A].
Qed.

Definition abs (t : tracker) : option (list N) := if tr_sync t then Some (tr_cache t) else None.
Definition cache_ok (st : option (list N)) : Prop := match st with Some c => bytes_ok c | None => True end.

Lemma expect_header_ok : forall b, bytes_ok b -> 6 <= length b -> expect_header b = Val (spec_header b).
Proof. intros b Hb L. unfold expect_header. rewrite header_decode_spec by assumption. reflexivity. Qed.
Lemma valid_header_tm : forall b, valid_packet_header (spec_header b) = true <-> tm_header b.
Proof.
  intro b. unfold valid_packet_header, tm_header.
  destruct (N.eqb_spec (version (spec_header b)) 0), (N.eqb_spec (type_flag (spec_header b)) 0); cbn; split; intro H; try discriminate; try tauto.
Qed.
Lemma need_wire : forall b, N.to_nat (len_minus1 (spec_header b)) + 1 + HDR_LEN = wire_len b.
Proof. intro b. unfold wire_len, HDR_LEN, spec_header. cbn [len_minus1]. lia. Qed.

(* the extraction loop *)
Lemma extract_carve : forall fuel t, bytes_ok (tr_cache t) -> 6 <= length (tr_cache t) -> tm_header (tr_cache t) ->
  wire_len (tr_cache t) <= length (tr_cache t) -> length (tr_cache t) < fuel -> tr_sync t = true ->
  exists ps t', fp_extract fuel t (wire_len (tr_cache t)) = Val (ps, t') /\ carve (tr_cache t) ps (abs t') /\ ps <> [].
Proof.
  induction fuel as [|fuel IH]; intros t Hb L6 T W HF HS; [lia|].
  assert (WG := wire_len_ge (tr_cache t)).
  cbn [fp_extract]. rewrite slice0 by exact W. cbn [obind]. rewrite slice_from_ok by exact W. cbn [obind].
  rewrite expect_header_ok by (try apply bytes_ok_firstn; try rewrite firstn_length; assumption || lia). cbn [obind].
  rewrite spec_header_firstn by lia. set (tail := skipn (wire_len (tr_cache t)) (tr_cache t)).
  assert (Ht : bytes_ok tail) by (apply bytes_ok_skipn; exact Hb).
  assert (Lt : length tail < length (tr_cache t)) by (unfold tail; rewrite skipn_length; lia).
  change HDR_LEN with 6. destruct (length tail <? 6) eqn:L.
  - apply Nat.ltb_lt in L. eexists; eexists. split; [reflexivity|]. split; [|discriminate].
    unfold abs. cbn [tr_sync tr_cache]. rewrite HS. eapply carve_packet; try assumption. apply carve_short. exact L.
  - apply Nat.ltb_ge in L. rewrite expect_header_ok by assumption. cbn [obind].
    destruct (valid_packet_header (spec_header tail)) eqn:V; cbn [negb].
    + apply valid_header_tm in V.
      replace (N.to_nat (len_minus1 (spec_header tail)) + 1 + 6) with (wire_len tail) by (rewrite <- need_wire; reflexivity).
      destruct (length tail <? wire_len tail) eqn:W2.
      * apply Nat.ltb_lt in W2. eexists; eexists. split; [reflexivity|]. split; [|discriminate].
        unfold abs. cbn [tr_sync tr_cache]. rewrite HS. eapply carve_packet; try assumption. apply carve_wait; assumption.
      * apply Nat.ltb_ge in W2.
        destruct (IH (mkTracker (tr_sync t) tail (tr_rs t))) as (ps & t' & E & C & _); cbn [tr_cache tr_sync]; try assumption; try lia.
        cbn [tr_cache] in E, C. rewrite E. cbn [obind]. eexists; eexists. split; [reflexivity|]. split; [|discriminate].
        eapply carve_packet; assumption.
    + assert (NT : ~ tm_header tail) by (intro X; apply valid_header_tm in X; congruence).
      eexists; eexists. split; [reflexivity|]. split; [|discriminate]. unfold abs. cbn [tracker_new tr_sync].
      eapply carve_packet; try assumption. apply carve_invalid; assumption.
Qed.
Lemma cache_carve : forall t, bytes_ok (tr_cache t) -> tr_sync t = true ->
  exists ps t', fp_cache t = Val (ps, t') /\ carve (tr_cache t) ps (abs t').
Proof.
  intros t Hb HS. unfold fp_cache. change HDR_LEN with 6. destruct (length (tr_cache t) <? 6) eqn:L.
  - apply Nat.ltb_lt in L. exists [], t. split; [reflexivity|]. unfold abs. rewrite HS. apply carve_short. exact L.
  - apply Nat.ltb_ge in L. rewrite expect_header_ok by assumption. cbn [obind].
    destruct (valid_packet_header (spec_header (tr_cache t))) eqn:V; cbn [negb].
    + apply valid_header_tm in V.
      replace (N.to_nat (len_minus1 (spec_header (tr_cache t))) + 1 + 6) with (wire_len (tr_cache t)) by (rewrite <- need_wire; reflexivity).
      destruct (length (tr_cache t) <? wire_len (tr_cache t)) eqn:W.
      * apply Nat.ltb_lt in W. exists [], t. split; [reflexivity|]. unfold abs. rewrite HS. apply carve_wait; assumption.
      * apply Nat.ltb_ge in W. destruct (extract_carve (S (length (tr_cache t))) t) as (ps & t' & E & C & _); try assumption; try lia.
        exists ps, t'. auto.
    + exists [], tracker_new. split; [reflexivity|]. apply carve_invalid; [exact L|]. intro X. apply valid_header_tm in X. congruence.
Qed.

Section Frames.
Variables izone trailer : nat.

Lemma zone_eq : forall f, long_enough izone trailer f ->
  firstn (length (f_data f) - trailer - (6 + izone)) (skipn (6 + izone) (f_data f)) = zone_of izone trailer f
  /\ length (zone_of izone trailer f) = length (f_data f) - trailer - (6 + izone).
Proof.
  intros f H. unfold long_enough in H. unfold zone_of. split.
  - rewrite firstn_skipn_comm. f_equal. f_equal. lia.
  - rewrite skipn_length, firstn_length. lia.
Qed.
Lemma mpdu_ok : forall f, bytes_ok (f_data f) -> long_enough izone trailer f ->
  exists m, frame_mpdu f izone trailer = Val (Some m) /\ mpdu_payload m = Val (payload_of izone trailer f) /\
    mpdu_header_offset m = pointer_of izone trailer f /\
    mpdu_has_header m = negb (pointer_of izone trailer f =? 2047) /\ mpdu_is_fill m = (pointer_of izone trailer f =? 2046).
Proof.
  intros f Hb HL. rewrite frame_mpdu_spec by exact Hb. destruct (zone_eq f HL) as [Z LZ]. rewrite Z. unfold long_enough in HL.
  replace (6 + izone + trailer <=? length (f_data f)) with true by (symmetry; apply Nat.leb_le; lia).
  cbv zeta. replace (length (zone_of izone trailer f) <? 2) with false by (symmetry; apply Nat.ltb_ge; lia).
  eexists. split; [reflexivity|]. unfold mpdu_payload, mpdu_header_offset, mpdu_has_header, mpdu_is_fill, pointer_of. cbn [m_data m_first_header].
  replace (2 <=? length (zone_of izone trailer f)) with true by (symmetry; apply Nat.leb_le; lia).
  split; [apply slice_from_ok; lia|]. split; [reflexivity|].
  set (x := field (zone_of izone trailer f) 5 11). clearbody x.
  change MPDU_NO_HEADER with 2047%N. change MPDU_FILL with 2046%N.
  assert (A : forall k : N, (x =? k)%N = (N.to_nat x =? N.to_nat k)).
  { intro k. destruct (N.eqb_spec x k), (Nat.eqb_spec (N.to_nat x) (N.to_nat k)); try reflexivity; try congruence. apply N2Nat.inj in e. contradiction. }
  rewrite !A. split; reflexivity.
Qed.
Lemma mpdu_short : forall f, bytes_ok (f_data f) -> ~ long_enough izone trailer f ->
  frame_mpdu f izone trailer = Panic \/ frame_mpdu f izone trailer = Val None.
Proof.
  intros f Hb HL. unfold long_enough in HL. rewrite frame_mpdu_spec by exact Hb.
  destruct (6 + izone + trailer <=? length (f_data f)) eqn:E; [|left; reflexivity].
  apply Nat.leb_le in E. right. cbv zeta.
  replace (_ <? 2) with true; [reflexivity|]. symmetry. apply Nat.ltb_lt. rewrite firstn_length, skipn_length. lia.
Qed.

Lemma payload_ok : forall f, bytes_ok (f_data f) -> bytes_ok (payload_of izone trailer f).
Proof. intros. unfold payload_of, zone_of. apply bytes_ok_skipn, bytes_ok_skipn, bytes_ok_firstn. assumption. Qed.

Lemma bad_b : forall f, bad_frame_b f = true <-> bad_frame f.
Proof.
  intro f. unfold bad_frame_b, bad_frame. destruct (f_integrity f) as [[]|]; split; intro H; try discriminate; auto; destruct H; discriminate.
Qed.

Lemma frame_step : forall t f, bytes_ok (f_data f) -> long_enough izone trailer f -> cache_ok (abs t) ->
  exists ps t', fp_frame izone trailer t f = Val (ps, t') /\ vc_step izone trailer (abs t) f ps (abs t').
Proof.
  intros t f Hb HL HC. destruct (mpdu_ok f Hb HL) as (m & E & P & O & HH & HFill).
  assert (Hp := payload_ok f Hb). unfold fp_frame. rewrite E. cbn [obind].
  assert (BODY : bad_frame f \/ ~ bad_frame f) by (destruct (bad_frame_b f) eqn:B; [left|right]; rewrite <- bad_b; congruence).
  destruct BODY as [B|B].
  - exists [], tracker_new. split; [destruct B as [-> | ->]; reflexivity|]. apply vc_bad. exact B.
  - assert (NB : match f_integrity f with Some IUncorrectable | Some INotCorrected => False | _ => True end).
    { unfold bad_frame in B. destruct (f_integrity f) as [[]|]; auto. }
    set (t1 := match f_integrity f with Some ICorrected => mkTracker (tr_sync t) (tr_cache t) true | _ => t end).
    assert (A1 : abs t1 = abs t) by (unfold t1, abs; destruct (f_integrity f) as [[]|]; reflexivity).
    set (t2 := if (0 <? f_missing f)%N then tracker_new else t1).
    assert (GO : exists ps t', (let* payload := mpdu_payload m in
          if tr_sync t2 then fp_cache (mkTracker true (tr_cache t2 ++ payload) (tr_rs t2))
          else if negb (mpdu_has_header m) then Val ([], t2)
          else if mpdu_is_fill m then Val ([], t2)
          else if (length payload <? mpdu_header_offset m) then Val ([], t2)
          else let* c := slice_from payload (mpdu_header_offset m) in fp_cache (mkTracker true c (tr_rs t2))) = Val (ps, t') /\
          vc_step izone trailer (abs t) f ps (abs t')).
    { rewrite P, HH, HFill, O. cbn [obind]. rewrite Bool.negb_involutive.
      destruct (tr_sync t2) eqn:S2.
      - assert (M0 : f_missing f = 0%N).
        { unfold t2 in S2. destruct (N.ltb_spec 0 (f_missing f)); [discriminate|lia]. }
        assert (A2 : abs t = Some (tr_cache t2)).
        { unfold t2 in *. rewrite M0 in *. cbn [N.ltb N.compare] in *. rewrite <- A1. unfold abs. rewrite S2. reflexivity. }
        rewrite A2 in HC |- *. cbn [cache_ok] in HC.
        destruct (cache_carve (mkTracker true (tr_cache t2 ++ payload_of izone trailer f) (tr_rs t2))) as (ps & t' & E2 & C2);
          [apply bytes_ok_app; auto|reflexivity|]. exists ps, t'. split; [exact E2|]. apply vc_continue; assumption.
      - assert (N2 : abs t = None \/ f_missing f <> 0%N).
        { unfold t2 in S2. destruct (N.ltb_spec 0 (f_missing f)) as [M|M]; [right; lia|left].
          rewrite <- A1. unfold abs. rewrite S2. reflexivity. }
        assert (A2 : abs t2 = None) by (unfold abs; rewrite S2; reflexivity).
        assert (HS : has_start izone trailer f = negb (pointer_of izone trailer f =? 2047) && negb (pointer_of izone trailer f =? 2046)
                  && (pointer_of izone trailer f <=? length (payload_of izone trailer f))) by reflexivity.
        destruct (pointer_of izone trailer f =? 2047) eqn:P1.
        { exists [], t2. split; [reflexivity|]. rewrite A2. apply vc_skip; assumption. }
        destruct (pointer_of izone trailer f =? 2046) eqn:P2.
        { exists [], t2. split; [reflexivity|]. rewrite A2. apply vc_skip; assumption. }
        destruct (length (payload_of izone trailer f) <? pointer_of izone trailer f) eqn:P3.
        { exists [], t2. split; [reflexivity|]. rewrite A2. apply vc_skip; try assumption. rewrite HS.
          apply Nat.ltb_lt in P3. cbn [negb andb]. apply Nat.leb_gt. exact P3. }
        apply Nat.ltb_ge in P3. rewrite slice_from_ok by exact P3. cbn [obind].
        destruct (cache_carve (mkTracker true (skipn (pointer_of izone trailer f) (payload_of izone trailer f)) (tr_rs t2))) as (ps & t' & E2 & C2);
          [apply bytes_ok_skipn; exact Hp|reflexivity|]. exists ps, t'. split; [exact E2|].
        apply vc_start; try assumption. rewrite HS. cbn [negb andb]. apply Nat.leb_le. exact P3. }
    destruct GO as (ps & t' & G & V). exists ps, t'. split; [|exact V]. rewrite <- G. unfold t2, t1.
    destruct (f_integrity f) as [[]|]; try contradiction; reflexivity.
Qed.
Lemma vc_step_det : forall st f ps st', vc_step izone trailer st f ps st' ->
  forall ps2 st2, vc_step izone trailer st f ps2 st2 -> ps = ps2 /\ st' = st2.
Proof.
  intros st f ps st' H ps2 st2 H2.
  inversion H; subst; inversion H2; subst; try contradiction; auto;
    repeat match goal with
    | X : Some _ = None \/ ?A |- _ => destruct X as [X|X]; [discriminate|]
    end; try congruence; eauto using carve_det.
Qed.
Lemma vc_step_ok : forall st f ps st', vc_step izone trailer st f ps st' -> bytes_ok (f_data f) -> cache_ok st -> cache_ok st'.
Proof.
  intros st f ps st' H Hb HC. inversion H; subst; try exact I.
  - match goal with X : carve _ _ _ |- _ => apply carve_bytes_ok in X; [|apply bytes_ok_app; split; [exact HC|apply payload_ok; exact Hb]]; destruct X as [_ X]; exact X end.
  - match goal with X : carve _ _ _ |- _ => apply carve_bytes_ok in X; [|apply bytes_ok_skipn, payload_ok; exact Hb]; destruct X as [_ X]; exact X end.
Qed.
Lemma vc_step_total : forall st f, exists ps st', vc_step izone trailer st f ps st'.
Proof.
  intros st f. destruct (bad_frame_b f) eqn:B.
  { exists [], None. apply vc_bad. apply bad_b. exact B. }
  assert (NB : ~ bad_frame f) by (rewrite <- bad_b; congruence).
  assert (R : (st = None \/ f_missing f <> 0%N) \/ exists c, st = Some c /\ f_missing f = 0%N).
  { destruct st as [c|]; [|auto]. destruct (N.eq_dec (f_missing f) 0); [right; eauto|auto]. }
  destruct R as [R|(c & -> & M)].
  - destruct (has_start izone trailer f) eqn:HS.
    + destruct (carve_total _ (skipn (pointer_of izone trailer f) (payload_of izone trailer f)) (le_n _)) as (ps & r & C).
      exists ps, r. apply vc_start; assumption.
    + exists [], None. apply vc_skip; assumption.
  - destruct (carve_total _ (c ++ payload_of izone trailer f) (le_n _)) as (ps & r & C). exists ps, r. apply vc_continue; assumption.
Qed.
Lemma vc_run_total : forall fs st, exists ps st', vc_run izone trailer st fs ps st'.
Proof.
  induction fs as [|f fs IH]; intro st; [exists [], st; constructor|].
  destruct (vc_step_total st f) as (ps & s1 & H1). destruct (IH s1) as (qs & s2 & H2). eexists; eexists. eapply vc_cons; eassumption.
Qed.
Lemma vc_run_det : forall fs st ps st', vc_run izone trailer st fs ps st' ->
  forall ps2 st2, vc_run izone trailer st fs ps2 st2 -> ps = ps2 /\ st' = st2.
Proof.
  induction fs as [|f fs IH]; intros st ps st' H ps2 st2 H2; inversion H; subst; inversion H2; subst; [auto|].
  match goal with A : vc_step _ _ st f _ _, B : vc_step _ _ st f _ _ |- _ => destruct (vc_step_det _ _ _ _ A _ _ B) as [-> ->] end.
  match goal with A : vc_run _ _ ?s fs _ _, B : vc_run _ _ ?s fs _ _ |- _ => destruct (IH _ _ _ A _ _ B) as [-> ->] end. auto.
Qed.
Lemma vc_run_app : forall fs gs st ps s1 qs s2, vc_run izone trailer st fs ps s1 -> vc_run izone trailer s1 gs qs s2 ->
  vc_run izone trailer st (fs ++ gs) (ps ++ qs) s2.
Proof.
  intros fs gs st ps s1 qs s2 H. revert qs s2. induction H; intros qs' s2' H2; [exact H2|].
  rewrite <- app_assoc. cbn [app]. eapply vc_cons; [eassumption|]. apply IHvc_run. exact H2.
Qed.
Lemma vc_run_split : forall fs gs st ps s2, vc_run izone trailer st (fs ++ gs) ps s2 ->
  exists p1 s1 p2, ps = p1 ++ p2 /\ vc_run izone trailer st fs p1 s1 /\ vc_run izone trailer s1 gs p2 s2.
Proof.
  induction fs as [|f fs IH]; intros gs st ps s2 H.
  - exists [], st, ps. split; [reflexivity|]. split; [constructor|exact H].
  - cbn [app] in H. inversion H; subst. match goal with X : vc_run _ _ _ (fs ++ gs) _ _ |- _ => destruct (IH _ _ _ _ X) as (p1 & s1 & p2 & -> & A & B) end.
    eexists; eexists; eexists. split; [|split; [eapply vc_cons; eassumption|exact B]]. rewrite app_assoc. reflexivity.
Qed.

(* ---- all virtual channels ---- *)
Notation frames_ok := (frames_ok izone trailer).
(* the state of every channel *)
Inductive mrun : (N -> option (list N)) -> list frame -> list (list packet) -> Prop :=
| mrun_nil : forall g, mrun g [] []
| mrun_cons : forall g g' f fs ps rest st',
    vc_step izone trailer (g (chan f)) f ps st' ->
    (forall v, g' v = if (v =? chan f)%N then st' else g v) ->
    mrun g' fs rest -> mrun g (f :: fs) (ps :: rest).
Definition mabs (m : amap tracker) (v : N) : option (list N) := abs (get_tracker v m).

Lemma mabs_set : forall m v t w, mabs (aset v t m) w = if (w =? v)%N then abs t else mabs m w.
Proof.
  intros. unfold mabs, get_tracker. rewrite aget_aset. destruct (w =? v)%N; reflexivity.
Qed.

Lemma loop_mrun : forall fs m g cs, frames_ok fs -> (forall v, mabs m v = g v) -> (forall v, cache_ok (g v)) ->
  mrun g fs cs -> forall ready, yields (fpiter_next izone trailer) (mkFpiter fs m ready) (ready ++ concat cs).
Proof.
  induction fs as [|f fs IH]; intros m g cs HF HM HC R.
  - inversion R; subst. cbn [concat]. induction ready as [|p ready IHr].
    + eapply yields_nil. reflexivity.
    + eapply yields_cons; [reflexivity|]. exact IHr.
  - inversion R as [|? g' ? ? ps rest st' VS HG RR]; subst. inversion HF as [|? ? [Hb HL] HF']; subst.
    destruct (frame_step (get_tracker (chan f) m) f Hb HL) as (ps2 & t' & E & V2).
    { change (abs (get_tracker (chan f) m)) with (mabs m (chan f)). rewrite HM. apply HC. }
    change (abs (get_tracker (chan f) m)) with (mabs m (chan f)) in V2. rewrite HM in V2.
    destruct (vc_step_det _ _ _ _ VS _ _ V2) as [<- Est].
    assert (Y : forall rd, yields (fpiter_next izone trailer) (mkFpiter fs (aset (chan f) t' m) rd) (rd ++ concat rest)).
    { apply IH with (g := g'); try assumption.
      - intro v. rewrite mabs_set, HG, HM, Est. reflexivity.
      - intro v. rewrite HG. destruct (v =? chan f)%N; [|apply HC]. eapply vc_step_ok; [exact VS|exact Hb|apply HC]. }
    induction ready as [|p ready IHr].
    + cbn [app concat]. assert (N : fpiter_next izone trailer (mkFpiter (f :: fs) m []) =
         match ps with [] => fp_loop izone trailer fs (aset (chan f) t' m) | p :: ps => Val (Some p, mkFpiter fs (aset (chan f) t' m) ps) end).
      { unfold fpiter_next. cbn [fp_ready fp_frames fp_trackers fp_loop]. fold (chan f). rewrite E. reflexivity. }
      destruct ps as [|p ps].
      * specialize (Y []). cbn [app] in *. inversion Y as [s s' E1|s s' a items E1 Y1]; subst.
        -- eapply yields_nil. rewrite N. exact E1.
        -- eapply yields_cons; [rewrite N; exact E1|exact Y1].
      * cbn [app]. eapply yields_cons; [exact N|]. apply Y.
    + cbn [app]. eapply yields_cons; [reflexivity|]. exact IHr.
Qed.
Lemma mrun_total : forall fs g, exists cs, mrun g fs cs.
Proof.
  induction fs as [|f fs IH]; intro g; [exists []; constructor|].
  destruct (vc_step_total (g (chan f)) f) as (ps & st' & V).
  destruct (IH (fun v => if (v =? chan f)%N then st' else g v)) as [cs R].
  exists (ps :: cs). eapply mrun_cons; [exact V| |exact R]. reflexivity.
Qed.
Lemma mrun_length : forall g fs cs, mrun g fs cs -> length cs = length fs.
Proof. induction 1; cbn; congruence. Qed.

(* the contributions to one channel are those of the channel's frames alone *)
Lemma mrun_channel : forall v g fs cs, mrun g fs cs -> exists st',
  vc_run izone trailer (g v) (filter (is_chan v) fs)
    (concat (map snd (filter (fun fc => is_chan v (fst fc)) (combine fs cs)))) st'.
Proof.
  intros v g fs cs R. induction R as [g|g g' f fs ps rest st' VS HG RR [s IH]].
  - exists (g v). constructor.
  - destruct (N.eqb_spec (chan f) v) as [EV|EV].
    + assert (EB : is_chan v f = true) by (unfold is_chan; apply N.eqb_eq; exact EV).
      cbn [filter combine fst]. rewrite EB. rewrite EV in HG, VS. exists s. cbn [map snd concat]. eapply vc_cons; [exact VS|].
      rewrite HG, N.eqb_refl in IH. exact IH.
    + assert (EB : is_chan v f = false) by (unfold is_chan; apply N.eqb_neq; exact EV).
      cbn [filter combine fst]. rewrite EB. exists s. rewrite HG in IH. destruct (N.eqb_spec v (chan f)); [congruence|]. exact IH.
Qed.

(* single channel *)
Lemma vc_run_mrun : forall v fs g ps st', Forall (fun f => chan f = v) fs -> vc_run izone trailer (g v) fs ps st' ->
  exists cs, mrun g fs cs /\ concat cs = ps.
Proof.
  intros v. induction fs as [|f fs IH]; intros g ps st' HV R; inversion R; subst.
  - exists []. split; constructor.
  - inversion HV; subst.
    match goal with X : vc_step _ _ _ f ?p ?s, Y : vc_run _ _ ?s fs ?q _ |- _ =>
      destruct (IH (fun w => if (w =? chan f)%N then s else g w) q st') as (cs & M & C);
        [assumption|cbn beta; rewrite N.eqb_refl; exact Y|];
      exists (p :: cs); split; [eapply mrun_cons; [exact X| |exact M]; reflexivity|cbn [concat]; rewrite C; reflexivity] end.
Qed.
Lemma decoder_mrun : forall fs cs, frames_ok fs -> mrun (fun _ => None) fs cs ->
  yields (fpiter_next izone trailer) (packet_decoder fs) (concat cs).
Proof.
  intros fs cs HF R. apply (loop_mrun fs [] (fun _ => None) cs HF (fun v => eq_refl) (fun v => I) R []).
Qed.
Lemma decoder_iff : forall fs ps, frames_ok fs ->
  (yields (fpiter_next izone trailer) (packet_decoder fs) ps <-> exists cs, mrun (fun _ => None) fs cs /\ ps = concat cs).
Proof.
  intros fs ps HF. split.
  - intro Y. destruct (mrun_total fs (fun _ => None)) as [cs R]. exists cs. split; [exact R|].
    apply (yields_det _ _ _ _ _ _ Y). apply decoder_mrun; assumption.
  - intros (cs & R & ->). apply decoder_mrun; assumption.
Qed.
Lemma single_iff : forall v fs ps, frames_ok fs -> Forall (fun f => chan f = v) fs ->
  (yields (fpiter_next izone trailer) (packet_decoder fs) ps <-> exists st', vc_run izone trailer None fs ps st').
Proof.
  intros v fs ps HF HV. split.
  - intro Y. destruct (vc_run_total fs None) as (qs & st' & R). exists st'.
    destruct (vc_run_mrun v fs (fun _ => None) qs st' HV R) as (cs & M & C).
    rewrite (yields_det _ _ _ _ _ _ Y (decoder_mrun fs cs HF M)), C. exact R.
  - intros [st' R]. destruct (vc_run_mrun v fs (fun _ => None) ps st' HV R) as (cs & M & <-). apply decoder_mrun; assumption.
Qed.

(* ---- panics ---- *)
Lemma fp_frame_short : forall t f, bytes_ok (f_data f) -> ~ long_enough izone trailer f -> fp_frame izone trailer t f = Panic.
Proof. intros t f Hb HL. unfold fp_frame. destruct (mpdu_short f Hb HL) as [-> | ->]; reflexivity. Qed.
Lemma loop_panics : forall fs m g f rest cs, frames_ok fs -> bytes_ok (f_data f) -> ~ long_enough izone trailer f ->
  (forall v, mabs m v = g v) -> (forall v, cache_ok (g v)) -> mrun g fs cs ->
  forall ready, panics_after (fpiter_next izone trailer) (mkFpiter (fs ++ f :: rest) m ready) (ready ++ concat cs).
Proof.
  induction fs as [|f0 fs IH]; intros m g f rest cs HF HB HN HM HC R.
  - inversion R; subst. cbn [concat app]. induction ready as [|p ready IHr].
    + apply panics_nil. unfold fpiter_next. cbn [fp_ready fp_frames fp_loop]. rewrite fp_frame_short by assumption. reflexivity.
    + eapply panics_cons; [reflexivity|]. exact IHr.
  - inversion R as [|? g' ? ? ps more st' VS HG RR]; subst. inversion HF as [|? ? [Hb HL] HF']; subst.
    destruct (frame_step (get_tracker (chan f0) m) f0 Hb HL) as (ps2 & t' & E & V2).
    { change (abs (get_tracker (chan f0) m)) with (mabs m (chan f0)). rewrite HM. apply HC. }
    change (abs (get_tracker (chan f0) m)) with (mabs m (chan f0)) in V2. rewrite HM in V2.
    destruct (vc_step_det _ _ _ _ VS _ _ V2) as [<- Est].
    assert (Y : forall rd, panics_after (fpiter_next izone trailer) (mkFpiter (fs ++ f :: rest) (aset (chan f0) t' m) rd) (rd ++ concat more)).
    { apply IH with (g := g'); try assumption.
      - intro v. rewrite mabs_set, HG, HM, Est. reflexivity.
      - intro v. rewrite HG. destruct (v =? chan f0)%N; [|apply HC]. eapply vc_step_ok; [exact VS|exact Hb|apply HC]. }
    induction ready as [|p ready IHr].
    + cbn [app concat]. assert (N : fpiter_next izone trailer (mkFpiter (f0 :: fs ++ f :: rest) m []) =
         match ps with [] => fp_loop izone trailer (fs ++ f :: rest) (aset (chan f0) t' m) | p :: ps => Val (Some p, mkFpiter (fs ++ f :: rest) (aset (chan f0) t' m) ps) end).
      { unfold fpiter_next. cbn [fp_ready fp_frames fp_trackers fp_loop]. fold (chan f0). rewrite E. reflexivity. }
      destruct ps as [|p ps].
      * specialize (Y []). cbn [app] in *. inversion Y as [s E1|s s' a items E1 Y1]; subst.
        -- apply panics_nil. rewrite N. exact E1.
        -- eapply panics_cons; [rewrite N; exact E1|exact Y1].
      * cbn [app]. eapply panics_cons; [exact N|]. apply Y.
    + cbn [app]. eapply panics_cons; [reflexivity|]. exact IHr.
Qed.
End Frames.
