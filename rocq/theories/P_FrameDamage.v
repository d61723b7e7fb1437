(* Property C108: frames with damage that was not detected *)
From Verif Require Import Base S_Bits M_Packet M_Bytes M_Sync M_Frame M_FramePackets L_Base L_Bits S_Packet L_Packet L_Frame S_FramePackets L_FramePackets L_FramePackets2 P_FramePackets
  M_Reader M_Merge S_Merge S_Join S_Damage P_Damage S_FrameDamage.
Open Scope nat_scope.

Lemma tm_app : forall a b, 6 <= length a -> tm_header (a ++ b) <-> tm_header a.
Proof. intros a b L. unfold tm_header. rewrite spec_header_app by exact L. reflexivity. Qed.
Lemma carve_split : forall a b ps c, carve (a ++ b) ps (Some c) -> exists p1 c1 p2, carve a p1 (Some c1) /\ carve (c1 ++ b) p2 (Some c) /\ ps = p1 ++ p2.
Proof.
  intro a. remember (length a) as n eqn:EN. assert (LN : length a <= n) by lia. clear EN. revert a LN.
  induction n as [n IH] using lt_wf_ind. intros a LN b ps c C.
  destruct (Nat.lt_ge_cases (length a) 6) as [S6|S6]; [exists [], a, ps; split; [apply carve_short; exact S6|]; split; [exact C|reflexivity]|].
  assert (TA : tm_header a).
  { inversion C as [? L0|? L0 NT|? L0 T W|? qs r L0 T W C']; subst.
    - rewrite app_length in L0. lia.
    - apply (tm_app a b S6). exact T.
    - apply (tm_app a b S6). exact T. }
  destruct (Nat.lt_ge_cases (length a) (wire_len a)) as [W|W].
  { exists [], a, ps. split; [apply carve_wait; assumption|]. split; [exact C|reflexivity]. }
  assert (WA := wire_len_app a b S6). assert (W7 := wire_len_ge a).
  inversion C as [? L0|? L0 NT|? L0 T W'|? qs r L0 T W' C']; subst.
  - rewrite app_length in L0. lia.
  - rewrite WA, app_length in W'. lia.
  - rewrite WA in *. rewrite skipn_app_le in C' by lia. rewrite firstn_app_le by lia. rewrite spec_header_app by exact S6.
    destruct (IH (length (skipn (wire_len a) a))) with (a := skipn (wire_len a) a) (b := b) (ps := qs) (c := c) as (p1 & c1 & p2 & C1 & C2 & E).
    { rewrite skipn_length. lia. }
    { lia. }
    { exact C'. }
    exists (mkPacket (spec_header a) (firstn (wire_len a) a) 0 :: p1), c1, p2. split; [apply carve_packet; assumption|]. split; [exact C2|]. rewrite E. reflexivity.
Qed.

Section S.
Variables izone trailer : nat.
Notation pay := (payload_of izone trailer).
Lemma run_on : forall rest c ps d, Forall (fun f => ~ bad_frame f) rest -> Forall (fun f => f_missing f = 0%N) rest ->
  carve (c ++ concat (map pay rest)) ps (Some d) -> carve c [] (Some c) ->
  exists st, vc_run izone trailer (Some c) rest ps st.
Proof.
  induction rest as [|f rest IH]; intros c ps d NB NM C CC; inversion NB; inversion NM; subst.
  - cbn [map concat] in C. rewrite app_nil_r in C. destruct (carve_det _ _ _ C _ _ CC) as [-> _]. exists (Some c). constructor.
  - cbn [map concat] in C. rewrite app_assoc in C. destruct (carve_split _ _ _ _ C) as (p1 & c1 & p2 & C1 & C2 & ->).
    assert (K : carve c1 [] (Some c1)).
    { destruct (carve_split _ [] p1 c1 ltac:(rewrite app_nil_r; exact C1)) as (q1 & d1 & q2 & D1 & D2 & E).
      destruct (carve_det _ _ _ D1 _ _ C1) as [-> X]. injection X as ->. rewrite app_nil_r in D2.
      assert (q2 = []) by (apply (app_inv_head p1); rewrite app_nil_r; symmetry; exact E). subst q2. exact D2. }
    destruct (IH c1 p2 d) as (st & R); [assumption|assumption|exact C2|exact K|].
    exists st. econstructor; [|exact R]. apply vc_continue; assumption.
Qed.
End S.

(* As long as frames follow one another without loss, packets are cut by their own lengths only: the first header pointers of the frames behind
   the first are not looked at *)
Theorem C108_lengths_only : forall izone trailer v f0 rest ps c, frames_ok izone trailer (f0 :: rest) -> Forall (fun f => chan f = v) (f0 :: rest) ->
  linked izone trailer f0 rest -> carve (zone_from izone trailer f0 rest) ps (Some c) ->
  yields (fpiter_next izone trailer) (packet_decoder (f0 :: rest)) ps.
Proof.
  intros izone trailer v f0 rest ps c FO CH (NB & NM & HS) C. apply single_iff with (v := v); [exact FO|exact CH|].
  unfold zone_from in C. destruct (carve_split _ _ _ _ C) as (p1 & c1 & p2 & C1 & C2 & ->).
  assert (K : carve c1 [] (Some c1)).
  { destruct (carve_split _ [] p1 c1 ltac:(rewrite app_nil_r; exact C1)) as (q1 & d1 & q2 & D1 & D2 & E).
    destruct (carve_det _ _ _ D1 _ _ C1) as [-> X]. injection X as ->. rewrite app_nil_r in D2.
    assert (q2 = []) by (apply (app_inv_head p1); rewrite app_nil_r; symmetry; exact E). subst q2. exact D2. }
  inversion NB; subst. destruct (run_on izone trailer rest c1 p2 c) as (st & R); [assumption|assumption|exact C2|exact K|].
  exists st. econstructor; [|exact R]. apply vc_start; [assumption|left; reflexivity|exact HS|exact C1].
Qed.
Print Assumptions C108_lengths_only.
(* so a length field damaged without being noticed loses the packets it then covers, although the pointers of the frames tell where these begin *)
Theorem C108_swallowed_refuted : forall izone trailer v f0 rest pre w lost post l, frames_ok izone trailer (f0 :: rest) -> Forall (fun f => chan f = v) (f0 :: rest) ->
  linked izone trailer f0 rest -> filed (pre ++ w :: lost ++ post) -> Forall telemetry (pre ++ w :: lost ++ post) -> lost <> [] ->
  (l < 65530)%N -> 7 + N.to_nat l = length (wire_bytes w) + length (stream lost) ->
  zone_from izone trailer f0 rest = stream pre ++ set_length l (wire_bytes w) ++ stream lost ++ stream post ->
  exists w', wire_bytes w' = set_length l (wire_bytes w) ++ stream lost /\ yields (fpiter_next izone trailer) (packet_decoder (f0 :: rest)) (map pk (pre ++ w' :: post)).
Proof.
  intros izone trailer v f0 rest pre w lost post l FO CH LK FD TM NE LL LEN Z.
  destruct (C106_swallowed_refuted pre w lost post l [] FD) as (w' & FH & E); [constructor|left; cbn; lia|cbn; lia|exact NE|exact LL|exact LEN|].
  exists w'. split; [exact E|]. destruct FH as (OK & _ & tail & S0 & _).
  assert (TM' : Forall telemetry (pre ++ w' :: post)).
  { apply Forall_app in TM. destruct TM as [T1 T2]. inversion T2 as [|? ? T3 T4]; subst. apply Forall_app in T4. destruct T4 as [_ T5].
    apply Forall_app. split; [exact T1|]. constructor; [|exact T5].
    apply Forall_app in OK. destruct OK as [_ OK]. inversion OK as [|? ? OKw _]; subst.
    destruct FD as [FD _]. apply Forall_app in FD. destruct FD as [_ FD]. inversion FD as [|? ? OKw0 _]; subst.
    destruct (wire_bytes_props w' OKw) as (_ & L7 & _ & H'). destruct (wire_bytes_props w OKw0) as (_ & L70 & _ & H0).
    unfold telemetry in *. rewrite <- H', E. rewrite <- H0 in T3.
    destruct (first_six (wire_bytes w) ltac:(lia)) as (a0 & a1 & a2 & a3 & a4 & a5 & r & EA). rewrite EA in T3 |- *. unfold set_length. cbn [firstn skipn app].
    unfold spec_header in *. cbn [version type_flag] in *.
    change (a0 :: a1 :: a2 :: a3 :: (l / 256)%N :: (l mod 256)%N :: r ++ stream lost) with ([a0] ++ (a1 :: a2 :: a3 :: (l / 256)%N :: (l mod 256)%N :: r ++ stream lost)).
    change (a0 :: a1 :: a2 :: a3 :: a4 :: a5 :: r) with ([a0] ++ (a1 :: a2 :: a3 :: a4 :: a5 :: r)) in T3.
    rewrite !field_app_l in * by (cbn; lia). exact T3. }
  assert (TN : tail = []).
  { apply length_zero_iff_nil. apply (f_equal (@length N)) in S0. rewrite map_app, concat_app in S0. cbn [map concat] in S0. rewrite E in S0.
    unfold stream in S0. rewrite !app_length in S0. cbn [length] in S0. lia. }
  rewrite TN, app_nil_r in S0. rewrite app_nil_r in S0.
  destruct (carve_stream (pre ++ w' :: post) (length (stream (pre ++ w' :: post))) OK TM' (le_n _)) as (dn & rem' & E1 & E2 & E3 & C).
  assert (RN : rem' = []).
  { destruct rem' as [|x r]; [reflexivity|]. exfalso. specialize (E3 x r eq_refl). rewrite E1 in E3 at 1. unfold stream in E3. rewrite map_app, concat_app in E3. cbn [map concat] in E3. rewrite !app_length in E3. lia. }
  rewrite RN, app_nil_r in E1. subst dn. rewrite firstn_all in C.
  eapply C108_lengths_only; [exact FO|exact CH|exact LK|]. rewrite Z, S0. exact C.
Qed.
Print Assumptions C108_swallowed_refuted.

(* ---- damage that keeps the cuts ---- *)
Lemma starts_start : forall ws x, starts_at ws x <-> exists k, k < length ws /\ x = start ws k.
Proof.
  assert (X : forall ws p x, (exists w, In (x, w) (with_pos p ws)) <-> exists k, k < length ws /\ x = p + start ws k).
  { induction ws as [|w ws IH]; intros p x.
    - split; [intros (w & []) |intros (k & H & _); cbn in H; lia].
    - split.
      + intros (u & [E|I]); [injection E as <- _; exists 0; split; [cbn; lia|cbn; lia]|].
        destruct (proj1 (IH (p + length (wire_bytes w)) x) (ex_intro _ u I)) as (k & Hk & E). exists (S k). split; [cbn; lia|]. rewrite start_S. lia.
      + intros (k & Hk & E). destruct k as [|k].
        * exists w. left. f_equal. rewrite E. cbn. lia.
        * destruct (proj2 (IH (p + length (wire_bytes w)) x)) as (u & I); [exists k; split; [cbn in Hk; lia|rewrite E, start_S; lia]|]. exists u. right. exact I. }
  intros ws x. apply (X ws 0 x).
Qed.
Lemma carries_range : forall izone trailer ws a fs e, carries izone trailer ws a fs e ->
  a <= e /\ (fs <> [] -> e <= length (stream ws)) /\ concat (map (payload_of izone trailer) fs) = firstn (e - a) (skipn a (stream ws)).
Proof.
  intros izone trailer ws a fs e C. induction C as [a|a n f fs e B L NB LE S46 P PT C (I1 & I2 & I3)].
  - split; [lia|]. split; [congruence|]. rewrite Nat.sub_diag. reflexivity.
  - split; [lia|]. split; [intros _; destruct fs as [|g gs]; [inversion C; subst; lia|apply I2; discriminate]|]. cbn [map concat]. rewrite P, I3.
    rewrite <- (skipn_skipn' n a) || idtac. replace (e - a) with (n + (e - (a + n))) by lia. rewrite Nat.add_comm with (n := a) (m := n), <- skipn_skipn.
    set (l := skipn a (stream ws)). rewrite <- (firstn_skipn n l) at 3. rewrite firstn_app, firstn_firstn.
    assert (LN : length (firstn n l) = n) by (rewrite firstn_length; unfold l; rewrite skipn_length; lia).
    rewrite LN. replace (n + (e - (n + a)) - n) with (e - (n + a)) by lia. f_equal. f_equal. lia.
Qed.
Lemma other_len : forall izone trailer f f', other_payload izone trailer f f' -> length (payload_of izone trailer f') = length (payload_of izone trailer f).
Proof. intros izone trailer f f' (_ & _ & _ & L & _). unfold payload_of, zone_of. rewrite !skipn_length, !firstn_length, L. reflexivity. Qed.
Lemma carries_damaged : forall izone trailer ws ws', length (stream ws') = length (stream ws) ->
  (forall x, starts_at ws' x <-> starts_at ws x) -> forall a fs e, carries izone trailer ws a fs e ->
  forall fs', Forall2 (other_payload izone trailer) fs fs' -> concat (map (payload_of izone trailer) fs') = firstn (e - a) (skipn a (stream ws')) ->
  carries izone trailer ws' a fs' e.
Proof.
  intros izone trailer ws ws' LS ST a fs e C. induction C as [a|a n f fs e B L NB LE S46 P PT C IH]; intros fs' F Q; inversion F as [|? f' ? r' O FR]; subst; [constructor|].
  assert (OL := other_len _ _ _ _ O). destruct O as (O1 & O2 & O3 & O4 & O5 & O6).
  assert (PL : length (payload_of izone trailer f) = n) by (rewrite P, firstn_length, skipn_length; lia).
  destruct (carries_range _ _ _ _ _ _ C) as (R1 & R2 & _).
  assert (LP : length (payload_of izone trailer f') = n) by lia.
  cbn [map concat] in Q.
  assert (Q1 : payload_of izone trailer f' = firstn n (skipn a (stream ws'))).
  { apply (f_equal (firstn n)) in Q. rewrite firstn_app, LP, Nat.sub_diag, firstn_O, app_nil_r in Q. rewrite <- LP in Q at 1. rewrite firstn_all in Q.
    rewrite Q, firstn_firstn. f_equal. lia. }
  assert (Q2 : concat (map (payload_of izone trailer) r') = firstn (e - (a + n)) (skipn (a + n) (stream ws'))).
  { apply (f_equal (skipn n)) in Q. rewrite skipn_app, LP, Nat.sub_diag in Q. rewrite <- LP in Q at 1. rewrite skipn_all in Q. cbn [skipn app] in Q.
    rewrite Q, skipn_firstn_comm, skipn_skipn. f_equal; [lia|]. f_equal. lia. }
  apply carries_cons with (n := n); try assumption.
  - unfold long_enough in *. lia.
  - unfold bad_frame in *. rewrite O3. exact NB.
  - lia.
  - rewrite O6. destruct PT as [(x & X1 & X2 & X3 & X4)|[X1 X2]].
    + left. exists x. split; [apply ST; exact X1|]. split; [exact X2|]. split; [|exact X4]. intros y Y. apply X3. apply ST. exact Y.
    + right. split; [|exact X2]. intros y Y. apply X1. apply ST. exact Y.
  - apply IH; assumption.
Qed.
(* Payloads damaged without being noticed, but for the version, type and length of packets: every packet comes out with what is now in its
   place, so one in which nothing was damaged comes out unchanged *)
Theorem C108_damage : forall izone trailer ws v a fs fs' e, filed ws -> Forall telemetry ws -> carries izone trailer ws a fs e -> fs <> [] ->
  Forall (fun f => v_vcid (f_header f) = v) fs -> Forall (fun f => f_missing f = 0%N) (tl fs) -> Forall2 (other_payload izone trailer) fs fs' ->
  cuts_kept ws (stream ws) (received izone trailer ws a fs' e) ->
  exists ws', length ws' = length ws /\ stream ws' = received izone trailer ws a fs' e /\
    yields (fpiter_next izone trailer) (packet_decoder fs) (map pk (map snd (filter (between a e) (with_pos 0 ws)))) /\
    yields (fpiter_next izone trailer) (packet_decoder fs') (map pk (map snd (filter (between a e) (with_pos 0 ws')))) /\
    forall k w w', nth_error ws k = Some w -> nth_error ws' k = Some w' ->
      start ws' k = start ws k /\ length (wire_bytes w') = length (wire_bytes w) /\
      ((forall i, i < length (wire_bytes w) -> kept_at (stream ws) (received izone trailer ws a fs' e) (start ws k + i)) -> w' = w).
Proof.
  intros izone trailer ws v a fs fs' e [OK SM] TM C NE CH NM F K. set (S' := received izone trailer ws a fs' e) in *.
  destruct (carries_range _ _ _ _ _ _ C) as (R1 & R2 & R3). specialize (R2 NE).
  assert (SB : bytes_ok (stream ws)) by (apply concat_wire_ok; exact OK).
  assert (CL : length (concat (map (payload_of izone trailer) fs')) = e - a).
  { transitivity (length (concat (map (payload_of izone trailer) fs))); [|rewrite R3, firstn_length, skipn_length; lia].
    clear -F. induction F as [|f f' fs fs' O F IH]; [reflexivity|]. cbn [map concat]. rewrite !app_length, IH, (other_len _ _ _ _ O). reflexivity. }
  assert (LS : length S' = length (stream ws)) by (unfold S', received; rewrite !app_length, CL, firstn_length, skipn_length; lia).
  assert (B' : bytes_ok S').
  { unfold S', received. apply bytes_ok_app. split; [apply bytes_ok_firstn; exact SB|]. apply bytes_ok_app. split; [|apply bytes_ok_skipn; exact SB].
    clear -F. induction F as [|f f' fs fs' O F IH]; [constructor|]. cbn [map concat]. apply bytes_ok_app. split; [|exact IH].
    destruct O as (_ & _ & _ & _ & O & _). unfold payload_of, zone_of. apply bytes_ok_skipn, bytes_ok_skipn, bytes_ok_firstn. exact O. }
  assert (FH : file_holds (stream ws) ws).
  { split; [exact OK|]. split; [exact SM|]. exists []. split; [symmetry; apply app_nil_r|]. split; [constructor|]. split; [left; cbn; lia|cbn; lia]. }
  destruct (C106_damage ws (stream ws) S' FH LS B') as (ws' & (OK' & SM' & tail & E & _) & LL & _ & EACH).
  { intros k Hk. destruct (Nat.lt_ge_cases k (length ws)) as [Q|Q]; [destruct (K k Q) as (_ & K4 & K5); split; assumption|].
    assert (EQ : k = length ws) by lia. subst k. unfold start. rewrite firstn_all. unfold kept_at. rewrite !(proj2 (nth_error_None _ _)) by lia. split; reflexivity. }
  fold (stream ws') in E.
  assert (SL : length (stream ws') = length (stream ws)).
  { assert (X : forall us us' : list wire_packet, length us' = length us -> (forall k w w', nth_error us k = Some w -> nth_error us' k = Some w' -> length (wire_bytes w') = length (wire_bytes w)) ->
      length (stream us') = length (stream us)).
    { induction us as [|u us IH]; intros [|u' us'] L H; try discriminate; [reflexivity|]. unfold stream in *. cbn [map concat]. rewrite !app_length, (H 0 u u' eq_refl eq_refl).
      f_equal. apply IH; [injection L as L; exact L|]. intros k x x' X X'. apply (H (S k)); assumption. }
    apply X; [exact LL|]. intros k w w' W W'. apply (EACH k w w' W W'). }
  assert (TN : tail = []) by (apply length_zero_iff_nil; apply (f_equal (@length N)) in E; rewrite app_length in E; lia).
  rewrite TN, app_nil_r in E.
  assert (STK : forall k, k < length ws -> start ws' k = start ws k).
  { intros k Hk. destruct (nth_error ws k) as [w|] eqn:W; [|apply nth_error_None in W; lia]. destruct (nth_error ws' k) as [w'|] eqn:W'; [|apply nth_error_None in W'; lia].
    apply (EACH k w w' W W'). }
  exists ws'. split; [exact LL|]. split; [symmetry; exact E|]. split; [apply (C36_reassembly izone trailer ws v a fs e OK TM C CH NM)|]. split.
  - apply (C36_reassembly izone trailer ws' v a fs' e OK').
    + apply Forall_forall. intros w' I. apply In_nth_error in I. destruct I as [k W']. assert (Hk : k < length ws) by (rewrite <- LL; apply nth_error_Some; congruence).
      destruct (nth_error ws k) as [w|] eqn:W; [|apply nth_error_None in W; lia]. destruct (EACH k w w' W W') as (_ & PLC & LW & _ & _).
      assert (OKw : wire_ok w) by (eapply (proj1 (Forall_forall _ _) OK), nth_error_In; exact W). assert (OKw' : wire_ok w') by (eapply (proj1 (Forall_forall _ _) OK'), nth_error_In; exact W').
      assert (TMw : telemetry w) by (eapply (proj1 (Forall_forall _ _) TM), nth_error_In; exact W).
      destruct (wire_bytes_props w OKw) as (_ & L7 & _ & H0). destruct (wire_bytes_props w' OKw') as (_ & L7' & _ & H1).
      (* the first byte of both *)
      assert (FB : nth_error (wire_bytes w') 0 = nth_error (wire_bytes w) 0).
      { destruct (C106_damage ws (stream ws) (stream ws) FH eq_refl SB) as (wsx & FHx & LLx & _ & EACHx); [intros i _; split; reflexivity|].
        destruct (nth_error wsx k) as [wx|] eqn:WX; [|apply nth_error_None in WX; lia].
        destruct (EACHx k w wx W WX) as (_ & PX & _ & SAME & _). assert (wx = w) by (apply SAME; intros; reflexivity). subst wx.
        rewrite PLC, PX. unfold place. destruct (K k Hk) as (K0 & _ & _). unfold kept_at in K0. rewrite <- (Nat.add_0_r (start ws k)) in K0. rewrite <- !nth_skip in K0.
        destruct (length (wire_bytes w)) as [|m]; [lia|]. destruct (skipn (start ws k) S') as [|y ys], (skipn (start ws k) (stream ws)) as [|z zs]; cbn in *; congruence. }
      unfold telemetry in *. rewrite <- H1. rewrite <- H0 in TMw. destruct (wire_bytes w) as [|y ys]; [cbn in L7; lia|]. destruct (wire_bytes w') as [|z zs]; [cbn in L7'; lia|].
      cbn in FB. injection FB as ->. unfold spec_header in *. cbn [version type_flag] in *.
      change (y :: ys) with ([y] ++ ys) in TMw. change (y :: zs) with ([y] ++ zs). rewrite !field_app_l in * by (cbn; lia). exact TMw.
    + apply (carries_damaged izone trailer ws ws' SL) with (fs := fs); [|exact C|exact F|].
      * intro x. rewrite !starts_start, LL. split; intros (k & Hk & X); exists k; (split; [exact Hk|]); rewrite X; [apply STK|symmetry; apply STK]; exact Hk.
      * rewrite <- E. unfold S', received. rewrite skipn_app, firstn_length, Nat.min_l by lia. rewrite Nat.sub_diag. cbn [skipn].
        rewrite (skipn_all2 (firstn a (stream ws))) by (rewrite firstn_length; lia). cbn [app]. rewrite firstn_app, CL, Nat.sub_diag, firstn_O, app_nil_r. rewrite <- CL. symmetry. apply firstn_all.
    + clear -F CH. induction F as [|f f' fs fs' O F IH]; [constructor|]. inversion CH; subst. constructor; [destruct O as (-> & _); reflexivity|apply IH; assumption].
    + destruct F as [|f f' fs fs' O F]; [constructor|]. cbn [tl] in *. clear -F NM. induction F as [|f f' fs fs' O F IH]; [constructor|]. inversion NM; subst. constructor; [destruct O as (_ & -> & _); assumption|apply IH; assumption].
  - intros k w w' W W'. destruct (EACH k w w' W W') as (E1 & _ & E3 & E4 & _). auto.
Qed.
Print Assumptions C108_damage.

(* ---- the hypotheses are met ---- *)
Lemma fd_filed : filed ex_ws.
Proof. split; repeat constructor; cbn; lia. Qed.
(* one byte of the data of the second of three packets, in the second of three frames: that packet comes out with the other byte, the others as they were *)
Definition fd_fs : list frame :=
  [ex_frame 3 1 0 (firstn 10 (stream ex_ws)); ex_frame 3 0 2047 (firstn 7 (skipn 10 (stream ex_ws)) ++ [99%N] ++ firstn 2 (skipn 18 (stream ex_ws)));
   ex_frame 3 0 0 (skipn 20 (stream ex_ws))].
Example C108_damage_ex : exists w', yields (fpiter_next 1 2) (packet_decoder fd_fs) (map pk [ex_packet 5 3; w'; ex_packet 7 2]) /\
  wire_bytes w' = firstn 8 (wire_bytes (ex_packet 6 5)) ++ [99%N] ++ skipn 9 (wire_bytes (ex_packet 6 5)).
Proof.
  destruct (C108_damage 1 2 ex_ws 3 0 ex_fs fd_fs 28 fd_filed) as (ws' & L & S & _ & Y & EACH).
  - repeat constructor.
  - exact C36_ex_carries.
  - discriminate.
  - repeat constructor.
  - repeat constructor.
  - repeat first [apply Forall2_cons|apply Forall2_nil]; (split; [reflexivity|split; [reflexivity|split; [reflexivity|split; [reflexivity|split; [ex_bytes|reflexivity]]]]]).
  - intros k Hk. cbn [length ex_ws] in Hk. destruct k as [|[|[|k]]]; [| | |lia]; split; [|split| |split| |split]; reflexivity.
  - destruct ws' as [|a [|b [|c [|d r]]]]; try discriminate L.
    assert (A : a = ex_packet 5 3).
    { apply (EACH 0 (ex_packet 5 3) a eq_refl eq_refl). intros i Hi. change (length (wire_bytes (ex_packet 5 3))) with 9 in Hi. do 9 (destruct i as [|i]; [reflexivity|]). lia. }
    assert (C : c = ex_packet 7 2).
    { apply (EACH 2 (ex_packet 7 2) c eq_refl eq_refl). intros i Hi. change (length (wire_bytes (ex_packet 7 2))) with 8 in Hi. do 8 (destruct i as [|i]; [reflexivity|]). lia. }
    subst a c. destruct (EACH 1 (ex_packet 6 5) b eq_refl eq_refl) as (_ & LB & _). change (length (wire_bytes (ex_packet 6 5))) with 11 in LB.
    assert (EB : wire_bytes b = firstn 8 (wire_bytes (ex_packet 6 5)) ++ [99%N] ++ skipn 9 (wire_bytes (ex_packet 6 5))).
    { apply (f_equal (fun l => firstn 11 (skipn 9 l))) in S. unfold stream in S at 1. cbn [map concat] in S.
      rewrite (skipn_app 9) in S. change (skipn 9 (wire_bytes (ex_packet 5 3))) with (@nil N) in S. change (9 - length (wire_bytes (ex_packet 5 3))) with 0 in S.
      rewrite app_nil_l, skipn_O, firstn_app, LB, Nat.sub_diag, firstn_O, app_nil_r, firstn_all2 in S by lia. rewrite S. vm_compute. reflexivity. }
    exists b. split; [|exact EB].
    assert (F : map snd (filter (between 0 28) (with_pos 0 [ex_packet 5 3; b; ex_packet 7 2])) = [ex_packet 5 3; b; ex_packet 7 2]).
    { cbn [with_pos filter]. unfold between. cbn [fst snd]. rewrite LB. reflexivity. }
    rewrite F in Y. exact Y.
Qed.
(* the length of the first packet damaged from 2 to 13, each frame holding one packet and saying so: the second packet does not come out *)
Definition fd_sw : list frame :=
  [ex_frame 3 0 0 (set_length 13 (wire_bytes (ex_packet 5 3))); ex_frame 3 0 0 (wire_bytes (ex_packet 6 5)); ex_frame 3 0 0 (wire_bytes (ex_packet 7 2))].
Example C108_swallowed_at : exists w', wire_bytes w' = set_length 13 (wire_bytes (ex_packet 5 3)) ++ wire_bytes (ex_packet 6 5) /\
  yields (fpiter_next 1 2) (packet_decoder fd_sw) (map pk [w'; ex_packet 7 2]).
Proof.
  destruct (C108_swallowed_refuted 1 2 3 (hd (ex_frame 0 0 0 []) fd_sw) (tl fd_sw) [] (ex_packet 5 3) [ex_packet 6 5] [ex_packet 7 2] 13) as (w' & E & Y).
  all: cbn [hd tl fd_sw app].
  - repeat constructor; try ex_bytes; unfold long_enough; cbn; lia.
  - repeat constructor.
  - split; [|split].
    + repeat constructor; intros [X|X]; discriminate.
    + repeat constructor.
    + reflexivity.
  - exact fd_filed.
  - repeat constructor.
  - discriminate.
  - lia.
  - reflexivity.
  - vm_compute. reflexivity.
  - exists w'. split; [rewrite E; reflexivity|exact Y].
Qed.
(* and with the lengths as they were all three come out *)
Example C108_lengths_only_ex : yields (fpiter_next 1 2) (packet_decoder
    [ex_frame 3 0 0 (wire_bytes (ex_packet 5 3)); ex_frame 3 0 4 (wire_bytes (ex_packet 6 5)); ex_frame 3 0 2047 (wire_bytes (ex_packet 7 2))])
  (map pk ex_ws).
Proof.
  apply (C108_lengths_only 1 2 3) with (c := []).
  - repeat constructor; try ex_bytes; unfold long_enough; cbn; lia.
  - repeat constructor.
  - split; [|split].
    + repeat constructor; intros [X|X]; discriminate.
    + repeat constructor.
    + reflexivity.
  - change (zone_from 1 2 _ _) with (stream ex_ws).
    apply carve_packet; [vm_compute; lia|split; reflexivity|vm_compute; lia|].
    apply carve_packet; [vm_compute; lia|split; reflexivity|vm_compute; lia|].
    apply carve_packet; [vm_compute; lia|split; reflexivity|vm_compute; lia|].
    apply carve_short. cbn. lia.
Qed.
