(* Property C103: what the decoders keep in memory *)
From Coq Require Import FinFun.
From Verif Require Import Base S_Bits M_Reader M_Packet M_Bytes M_Sync M_Frame M_FramePackets M_Summary L_Base L_Bits S_Packet L_Packet L_Frame S_FramePackets L_FramePackets S_Memory.
Open Scope nat_scope.

Lemma later_inv : forall S A (next : S -> outcome (option A * S)) (I : S -> Prop),
  (forall s a s', I s -> next s = Val (a, s') -> I s') -> forall s s', later next s s' -> I s -> I s'.
Proof. intros S A next I H s s' L. induction L; intro X; [exact X|]. apply IHL. eapply H; eassumption. Qed.

(* ---- packet_decoder ---- *)
Lemma wire_len_small : forall b, (N.of_nat (wire_len b) <= LONGEST)%N.
Proof.
  intros b. unfold wire_len, LONGEST. assert (X := field_bound b 32 16). change (2 ^ N.of_nat 16)%N with 65536%N in X. lia.
Qed.
Definition small (c : list N) : Prop := (N.of_nat (length c) < LONGEST)%N.
Lemma carve_small : forall b ps st, carve b ps st -> (match st with Some c => small c | None => True end) /\
  packet_bytes ps + length (match st with Some c => c | None => [] end) <= length b.
Proof.
  intros b ps st C. induction C as [b L|b L T|b L T W|b ps st L T W C [IH1 IH2]]; unfold packet_bytes in *; cbn [map concat length].
  - split; [unfold small, LONGEST; lia|lia].
  - split; [exact I|lia].
  - split; [|lia]. unfold small. assert (X := wire_len_small b). lia.
  - split; [exact IH1|]. rewrite app_length. cbn [p_data]. rewrite firstn_length. rewrite skipn_length in IH2. lia.
Qed.
Section Decoder.
Variables izone trailer : nat.
Definition st_small (st : option (list N)) : Prop := match st with Some c => small c | None => True end.
Lemma payload_length : forall f, length (payload_of izone trailer f) <= length (f_data f).
Proof. intro f. unfold payload_of, zone_of. rewrite !skipn_length, firstn_length. lia. Qed.
Lemma step_small : forall st f ps st', vc_step izone trailer st f ps st' -> st_small st -> st_small st' /\
  (ps = [] \/ (N.of_nat (packet_bytes ps) < LONGEST + N.of_nat (length (f_data f)))%N).
Proof.
  intros st f ps st' H S0. assert (PL := payload_length f).
  inversion H as [? ? B|c ? ? ? NB M C|? ? ? ? NB G HS C|? ? NB G HS]; subst.
  - split; [exact I|left; reflexivity].
  - apply carve_small in C. destruct C as [C1 C2]. split; [exact C1|]. right. cbn [st_small] in S0. unfold small in S0. rewrite app_length in C2. lia.
  - apply carve_small in C. destruct C as [C1 C2]. split; [exact C1|]. right. rewrite skipn_length in C2. unfold LONGEST. lia.
  - split; [exact I|left; reflexivity].
Qed.
(* a tracker without synchronization keeps nothing *)
Definition tidy (t : tracker) : Prop := bytes_ok (tr_cache t) /\ small (tr_cache t) /\ (tr_sync t = false -> tr_cache t = []).
Lemma tidy_new : tidy tracker_new. Proof. repeat split. constructor. Qed.
Lemma extract_sync : forall fuel t need ps t', fp_extract fuel t need = Val (ps, t') -> tr_sync t = true -> tr_sync t' = false -> tr_cache t' = [].
Proof.
  induction fuel as [|fuel IH]; intros t need ps t' E S0 S1; [discriminate|]. cbn [fp_extract] in E.
  destruct (slice (tr_cache t) 0 need) as [data|]; [|discriminate]. cbn [obind] in E. destruct (slice_from _ _) as [tail|]; [|discriminate]. cbn [obind] in E.
  destruct (expect_header data); [|discriminate]. cbn [obind] in E. destruct (length tail <? HDR_LEN); [injection E as <- <-; cbn [tr_sync] in S1; congruence|].
  destruct (expect_header tail); [|discriminate]. cbn [obind] in E. destruct (negb _); [injection E as <- <-; reflexivity|].
  destruct (length tail <? _); [injection E as <- <-; cbn [tr_sync] in S1; congruence|].
  destruct (fp_extract fuel _ _) as [[qs t2]|] eqn:X; [|discriminate]. cbn [obind] in E. injection E as <- <-. eapply IH; [exact X|exact S0|exact S1].
Qed.
Lemma cache_sync : forall t ps t', fp_cache t = Val (ps, t') -> tr_sync t = true -> tr_sync t' = false -> tr_cache t' = [].
Proof.
  intros t ps t' E S0 S1. unfold fp_cache in E. destruct (_ <? HDR_LEN); [injection E as <- <-; congruence|].
  destruct (expect_header _); [|discriminate]. cbn [obind] in E. destruct (negb _); [injection E as <- <-; reflexivity|].
  destruct (_ <? _); [injection E as <- <-; congruence|]. eapply extract_sync; eassumption.
Qed.
Lemma frame_sync : forall t f ps t', fp_frame izone trailer t f = Val (ps, t') -> (tr_sync t = false -> tr_cache t = []) -> tr_sync t' = false -> tr_cache t' = [].
Proof.
  intros t f ps t' E S0 S1. unfold fp_frame in E. destruct (frame_mpdu _ _ _) as [[m|]|]; [|discriminate|discriminate]. cbn [obind] in E.
  destruct (bad_frame_b f) eqn:B.
  { unfold bad_frame_b in B. destruct (f_integrity f) as [[]|]; try discriminate; injection E as <- <-; reflexivity. }
  set (t1 := match f_integrity f with Some ICorrected => mkTracker (tr_sync t) (tr_cache t) true | _ => t end) in *.
  set (t2 := if (0 <? f_missing f)%N then tracker_new else t1) in *.
  assert (S2 : tr_sync t2 = false -> tr_cache t2 = []).
  { unfold t2, t1. destruct (0 <? f_missing f)%N; [reflexivity|]. destruct (f_integrity f) as [[]|]; exact S0. }
  assert (E' : (let* payload := mpdu_payload m in
          if tr_sync t2 then fp_cache (mkTracker true (tr_cache t2 ++ payload) (tr_rs t2))
          else if negb (mpdu_has_header m) then Val ([], t2)
          else if mpdu_is_fill m then Val ([], t2)
          else if (length payload <? mpdu_header_offset m) then Val ([], t2)
          else let* c := slice_from payload (mpdu_header_offset m) in fp_cache (mkTracker true c (tr_rs t2))) = Val (ps, t')).
  { rewrite <- E. unfold t2, t1. unfold bad_frame_b in B. destruct (f_integrity f) as [[]|]; try discriminate; reflexivity. }
  clear E. destruct (mpdu_payload m) as [payload|]; [|discriminate]. cbn [obind] in E'.
  destruct (tr_sync t2) eqn:Q; [eapply cache_sync; [exact E'|reflexivity|exact S1]|].
  destruct (negb _); [injection E' as <- <-; auto|]. destruct (mpdu_is_fill m); [injection E' as <- <-; auto|].
  destruct (_ <? _); [injection E' as <- <-; auto|]. destruct (slice_from _ _); [|discriminate]. cbn [obind] in E'. eapply cache_sync; [exact E'|reflexivity|exact S1].
Qed.
Lemma frame_tidy : forall t f ps t', bytes_ok (f_data f) -> tidy t -> fp_frame izone trailer t f = Val (ps, t') -> tidy t' /\
  (ps = [] \/ (N.of_nat (packet_bytes ps) < LONGEST + N.of_nat (length (f_data f)))%N).
Proof.
  intros t f ps t' B (T1 & T2 & T3) E.
  assert (LE : long_enough izone trailer f).
  { unfold long_enough. destruct (Nat.le_gt_cases (6 + izone + 2 + trailer) (length (f_data f))) as [L|L]; [exact L|].
    rewrite fp_frame_short in E; [discriminate|exact B|unfold long_enough; lia]. }
  assert (CO : cache_ok (abs t)) by (unfold abs; destruct (tr_sync t); [exact T1|exact I]).
  destruct (frame_step izone trailer t f B LE CO) as (ps2 & t2 & E2 & V). rewrite E in E2. injection E2 as <- <-.
  assert (S0 : st_small (abs t)) by (unfold abs; destruct (tr_sync t); [exact T2|exact I]).
  destruct (step_small _ _ _ _ V S0) as [A D]. split; [|exact D].
  assert (BO := vc_step_ok izone trailer _ _ _ _ V B CO). assert (Z := frame_sync _ _ _ _ E T3). unfold abs in A, BO. unfold tidy.
  destruct (tr_sync t') eqn:Q; [repeat split; try assumption; congruence|]. rewrite (Z eq_refl). split; [constructor|]. split; [reflexivity|auto].
Qed.
Definition kept_small (all : list frame) (s : fpiter) : Prop :=
  (forall v t, aget v (fp_trackers s) = Some t -> tidy t) /\ NoDup (map fst (fp_trackers s)) /\ (forall v, In v (map fst (fp_trackers s)) -> exists f, In f all /\ chan f = v) /\
  (forall f, In f (fp_frames s) -> In f all) /\
  (fp_ready s = [] \/ exists f, In f all /\ (N.of_nat (packet_bytes (fp_ready s)) < LONGEST + N.of_nat (length (f_data f)))%N).
Lemma loop_small : forall all fs m a s', Forall (fun f => bytes_ok (f_data f)) all -> kept_small all (mkFpiter fs m []) -> fp_loop izone trailer fs m = Val (a, s') -> kept_small all s'.
Proof.
  intros all fs. induction fs as [|f fs IH]; intros m a s' B K E; cbn [fp_loop] in E; [injection E as _ <-; exact K|].
  destruct K as (K1 & K2 & K3 & K4 & _). cbn [fp_trackers fp_frames fp_ready] in *.
  assert (IF : In f all) by (apply K4; left; reflexivity).
  destruct (fp_frame izone trailer (get_tracker (v_vcid (f_header f)) m) f) as [[ps t]|] eqn:EF; [|discriminate]. cbn [obind] in E.
  assert (TG : tidy (get_tracker (v_vcid (f_header f)) m)) by (unfold get_tracker; destruct (aget _ m) eqn:G; [eapply K1; exact G|apply tidy_new]).
  rewrite Forall_forall in B. destruct (frame_tidy _ _ _ _ (B f IF) TG EF) as [T D].
  assert (K' : forall rd, (rd = [] \/ exists f, In f all /\ (N.of_nat (packet_bytes rd) < LONGEST + N.of_nat (length (f_data f)))%N) -> kept_small all (mkFpiter fs (aset (v_vcid (f_header f)) t m) rd)).
  { intros rd R. split; [|split; [|split; [|split]]]; cbn [fp_trackers fp_frames fp_ready].
    - intros v t0 G. rewrite aget_aset in G. destruct (N.eqb v _); [injection G as <-; exact T|eapply K1; exact G].
    - apply nodup_aset. exact K2.
    - intros v I. apply keys_aset in I. destruct I as [->|I]; [exists f; auto|apply K3; exact I].
    - intros g I. apply K4. right. exact I.
    - exact R. }
  destruct ps as [|p ps].
  - eapply IH; [apply Forall_forall; exact B| |exact E]. apply K'. left. reflexivity.
  - injection E as _ <-. apply K'. right. exists f. split; [exact IF|]. destruct D as [D|D]; [discriminate|].
    unfold packet_bytes in *. cbn [map concat] in D. rewrite app_length in D. lia.
Qed.
Lemma next_small : forall all s a s', Forall (fun f => bytes_ok (f_data f)) all -> kept_small all s -> fpiter_next izone trailer s = Val (a, s') -> kept_small all s'.
Proof.
  intros all [fs m rd] a s' B K E. unfold fpiter_next in E. cbn [fp_ready fp_frames fp_trackers] in E. destruct rd as [|p rd].
  - eapply loop_small; eassumption.
  - injection E as _ <-. destruct K as (K1 & K2 & K3 & K4 & K5). split; [exact K1|]. split; [exact K2|]. split; [exact K3|]. split; [exact K4|].
    cbn [fp_ready] in *. right. destruct K5 as [K5|(f & I & L)]; [discriminate|]. exists f. split; [exact I|].
    unfold packet_bytes in *. cbn [map concat] in L. rewrite app_length in L. lia.
Qed.
End Decoder.

(* However long it runs, packet_decoder keeps less than one packet of the greatest length for each channel that frames came of,
   and the packets found with one frame. *)
Theorem C103_packet_decoder : forall izone trailer frames s, Forall (fun f => bytes_ok (f_data f)) frames ->
  later (fpiter_next izone trailer) (packet_decoder frames) s ->
  (forall v, (N.of_nat (unfinished s v) < LONGEST)%N) /\ NoDup (channels s) /\ (forall v, In v (channels s) -> exists f, In f frames /\ chan f = v) /\
  (found s = 0 \/ exists f, In f frames /\ (N.of_nat (found s) < LONGEST + N.of_nat (length (f_data f)))%N).
Proof.
  intros izone trailer frames s B L.
  assert (K : kept_small frames s).
  { eapply later_inv; [|exact L|].
    - intros s0 a s1 K E. eapply next_small; eassumption.
    - split; [discriminate|]. split; [constructor|]. split; [intros v []|]. split; [auto|left; reflexivity]. }
  destruct K as (K1 & K2 & K3 & _ & K5). split; [|split; [exact K2|split; [exact K3|]]].
  - intro v. unfold unfinished. destruct (aget v (fp_trackers s)) eqn:G; [apply (K1 v t G)|reflexivity].
  - unfold found. destruct K5 as [-> |K5]; [left; reflexivity|right; exact K5].
Qed.
Print Assumptions C103_packet_decoder.
Lemma below_64 : forall l : list N, NoDup l -> (forall v, In v l -> (v < 64)%N) -> length l <= 64.
Proof.
  intros l ND B. assert (X : incl (map N.to_nat l) (seq 0 64)).
  { intros n I. apply in_map_iff in I. destruct I as (v & <- & I). apply B in I. apply in_seq. lia. }
  apply NoDup_incl_length in X; [rewrite map_length, seq_length in X; exact X|]. apply Injective_map_NoDup; [|exact ND]. intros a b E. lia.
Qed.
(* with the at most 64 channels of the frames of frame_decoder: less than 4 MiB and 4 KiB in all *)
Theorem C103_packet_decoder_total : forall izone trailer frames s, Forall (fun f => bytes_ok (f_data f)) frames -> Forall (fun f => (chan f < 64)%N) frames ->
  later (fpiter_next izone trailer) (packet_decoder frames) s -> (N.of_nat (total_unfinished s) <= 64 * (LONGEST - 1))%N.
Proof.
  intros izone trailer frames s B C L. destruct (C103_packet_decoder izone trailer frames s B L) as (U & ND & K & _).
  assert (L64 : length (channels s) <= 64).
  { apply below_64; [exact ND|]. intros v I. destruct (K v I) as (f & J & <-). rewrite Forall_forall in C. apply C, J. }
  unfold total_unfinished. assert (X : (N.of_nat (list_sum (map (unfinished s) (channels s))) <= N.of_nat (length (channels s)) * (LONGEST - 1))%N).
  { generalize (channels s). intro l. induction l as [|v l IH]; [cbn; lia|]. cbn [map list_sum fold_right length]. fold (list_sum (map (unfinished s) l)). specialize (U v). unfold LONGEST in *. lia. }
  unfold LONGEST in *. lia.
Qed.
Print Assumptions C103_packet_decoder_total.
(* A comment says that there should only be up to about one frame's worth of data in the cache. It can be any number of frames'
   worth, up to the longest packet less one byte. *)
Section Long.
Variable L : nat.
Hypothesis L6 : 6 <= L.
Definition part (payload : list N) : frame := mkFrame (mkVcdu 1 0 5 0) 0 None ([0; 0; 0; 0; 0; 0; 0; 0]%N ++ payload).
Definition first_part : frame := part ([0; 0; 0; 0; 255; 255]%N ++ repeat 0%N (L - 6)).
Definition next_part : frame := part (repeat 0%N L).
Definition sofar (k : nat) : list N := [0; 0; 0; 0; 255; 255]%N ++ repeat 0%N (k * L - 6).
Lemma zeros_ok : forall n, bytes_ok (repeat 0%N n).
Proof. induction n; constructor; [reflexivity|exact IHn]. Qed.
Lemma part_zone : forall p, zone_of 0 0 (part p) = [0; 0]%N ++ p.
Proof. intro p. unfold zone_of, part. cbn [f_data app]. rewrite Nat.sub_0_r, firstn_all. reflexivity. Qed.
Lemma part_payload : forall p, payload_of 0 0 (part p) = p.
Proof. intro p. unfold payload_of. rewrite part_zone. reflexivity. Qed.
Lemma sofar_wait : forall k, 1 <= k -> (N.of_nat (k * L) < LONGEST)%N -> carve (sofar k) [] (Some (sofar k)).
Proof.
  intros k K B. assert (LS : length (sofar k) = k * L) by (unfold sofar; rewrite app_length, repeat_length; cbn [length]; nia).
  apply carve_wait; [rewrite LS; nia|split; reflexivity|]. rewrite LS. unfold wire_len. replace (field (sofar k) 32 16) with 65535%N by reflexivity. unfold LONGEST in B. lia.
Qed.
Lemma next_step : forall k, 1 <= k -> (N.of_nat (S k * L) < LONGEST)%N -> vc_step 0 0 (Some (sofar k)) next_part [] (Some (sofar (S k))).
Proof.
  intros k K B. apply vc_continue; [intros [C|C]; discriminate|reflexivity|]. unfold next_part. rewrite part_payload.
  replace (sofar k ++ repeat 0%N L) with (sofar (S k)); [apply sofar_wait; [lia|exact B]|].
  unfold sofar. rewrite <- app_assoc, <- repeat_app. do 2 f_equal. nia.
Qed.
Lemma first_step : (N.of_nat L < LONGEST)%N -> vc_step 0 0 None first_part [] (Some (sofar 1)).
Proof.
  intro B. replace (sofar 1) with (payload_of 0 0 first_part) by (unfold first_part; rewrite part_payload; unfold sofar; rewrite Nat.mul_1_l; reflexivity).
  apply vc_start; [intros [C|C]; discriminate|left; reflexivity|reflexivity|].
  replace (skipn (pointer_of 0 0 first_part) (payload_of 0 0 first_part)) with (sofar 1); [|unfold first_part; rewrite part_payload; unfold sofar; rewrite Nat.mul_1_l; reflexivity].
  replace (payload_of 0 0 first_part) with (sofar 1) by (unfold first_part; rewrite part_payload; unfold sofar; rewrite Nat.mul_1_l; reflexivity).
  apply sofar_wait; [lia|]. rewrite Nat.mul_1_l. exact B.
Qed.
Lemma part_ok : forall p, bytes_ok p -> bytes_ok (f_data (part p)) /\ long_enough 0 0 (part p).
Proof using.
  clear L6 L. intros p B. split; [repeat constructor; exact B|]. unfold long_enough, part. cbn [f_data app length]. lia.
Qed.
Lemma loop_next : forall n k m, 1 <= k -> (N.of_nat ((n + k) * L) < LONGEST)%N -> abs (get_tracker 5 m) = Some (sofar k) ->
  exists s, fp_loop 0 0 (repeat next_part n) m = Val (None, s) /\ abs (get_tracker 5 (fp_trackers s)) = Some (sofar (n + k)).
Proof.
  induction n as [|n IH]; intros k m K B A; cbn [repeat fp_loop].
  - eexists. split; [reflexivity|]. exact A.
  - destruct (part_ok (repeat 0%N L) (zeros_ok L)) as [P1 P2]. fold next_part in P1, P2.
    assert (CO : cache_ok (abs (get_tracker 5 m))) by (rewrite A; cbn [cache_ok]; unfold sofar; apply bytes_ok_app; split; [repeat constructor|apply zeros_ok]).
    destruct (frame_step 0 0 (get_tracker 5 m) next_part P1 P2 CO) as (ps & t' & E & V). rewrite A in V.
    assert (V2 : vc_step 0 0 (Some (sofar k)) next_part [] (Some (sofar (S k)))) by (apply next_step; [exact K|nia]).
    destruct (vc_step_det _ _ _ _ _ _ V _ _ V2) as [-> ET].
    change (v_vcid (f_header next_part)) with 5%N. rewrite E. cbn [obind].
    destruct (IH (S k) (aset 5%N t' m)) as (s & X & Y); [lia|replace (n + S k) with (S n + k) by lia; exact B| |].
    + unfold get_tracker. rewrite aget_aset_eq. exact ET.
    + exists s. split; [exact X|]. replace (S n + k) with (n + S k) by lia. exact Y.
Qed.
End Long.
Theorem C103_one_frame_of_data_refuted : forall L n, 6 <= L -> 1 <= n -> (N.of_nat (n * L) < LONGEST)%N ->
  exists frames s, length frames = n /\ Forall (fun f => length (payload_of 0 0 f) = L) frames /\
    fpiter_next 0 0 (packet_decoder frames) = Val (None, s) /\ unfinished s 5 = n * L.
Proof.
  intros L n L6 N1 B. destruct n as [|n]; [lia|]. exists (first_part L :: repeat (next_part L) n).
  assert (HF : length ([0; 0; 0; 0; 255; 255]%N ++ repeat 0%N (L - 6)) = L) by (rewrite app_length, repeat_length; cbn [length]; lia).
  destruct (part_ok ([0; 0; 0; 0; 255; 255]%N ++ repeat 0%N (L - 6))) as [P1 P2]; [repeat constructor; apply zeros_ok|].
  destruct (frame_step 0 0 tracker_new (first_part L) P1 P2 I) as (ps & t' & E & V).
  assert (V2 : vc_step 0 0 None (first_part L) [] (Some (sofar L 1))) by (apply first_step; [exact L6|nia]).
  destruct (vc_step_det _ _ _ _ _ _ V _ _ V2) as [-> ET].
  destruct (loop_next L L6 n 1 (aset 5%N t' [])) as (s & X & Y); [lia|replace (n + 1) with (S n) by lia; exact B|unfold get_tracker; rewrite aget_aset_eq; exact ET|].
  exists s. split; [cbn [length]; rewrite repeat_length; reflexivity|]. split; [|split].
  - constructor; [unfold first_part; rewrite part_payload; exact HF|]. apply Forall_forall. intros f I. apply repeat_spec in I. subst f. unfold next_part. rewrite part_payload. apply repeat_length.
  - unfold fpiter_next, packet_decoder. cbn [fp_ready fp_frames fp_trackers fp_loop]. change (get_tracker (v_vcid (f_header (first_part L))) []) with tracker_new.
    rewrite E. cbn [obind]. exact X.
  - unfold unfinished. unfold abs, get_tracker in Y. destruct (aget 5 (fp_trackers s)) as [t|]; [|discriminate]. destruct (tr_sync t); [|discriminate]. injection Y as ->.
    unfold sofar. rewrite app_length, repeat_length. cbn [length]. nia.
Qed.
Print Assumptions C103_one_frame_of_data_refuted.

(* ---- frame_decoder, Summary ---- *)
Lemma vcid_64 : forall dat h, vcdu_decode dat = Val (Some h) -> (v_vcid h < 64)%N.
Proof.
  intros dat h E. unfold vcdu_decode in E. destruct (_ <? _); [discriminate|]. destruct (get dat 0) as [b0|] eqn:G0; [|discriminate]. cbn [obind] in E.
  assert (M : forall x k, (N.land x (N.ones k) < 2 ^ k)%N) by (intros x k; rewrite N.land_ones; apply N.mod_lt; apply N.pow_nonzero; discriminate).
  destruct (N.land (N.shiftr b0 6) 3) as [|[| |]]; try discriminate.
  - unfold vcdu_decode_v1 in E. rewrite G0 in E. cbn [obind] in E. destruct (get dat 1); [|discriminate]. cbn [obind] in E. destruct (get dat 2); [|discriminate]. cbn [obind] in E.
    destruct (get dat 3); [|discriminate]. cbn [obind] in E. injection E as <-. cbn [v_vcid].
    match goal with |- (N.land ?x 7 < 64)%N => specialize (M x 3%N) end. change (N.ones 3) with 7%N in M. change (2 ^ 3)%N with 8%N in M. lia.
  - unfold vcdu_decode_v2 in E. rewrite G0 in E. cbn [obind] in E. destruct (get dat 1); [|discriminate]. cbn [obind] in E. destruct (get dat 2); [|discriminate]. cbn [obind] in E.
    destruct (get dat 3); [|discriminate]. cbn [obind] in E. destruct (get dat 4); [|discriminate]. cbn [obind] in E. injection E as <-. cbn [v_vcid].
    match goal with |- (N.land ?x 63 < 64)%N => specialize (M x 6%N) end. change (N.ones 6) with 63%N in M. change (2 ^ 6)%N with 64%N in M. exact M.
Qed.
Lemma fdec_inv : forall ovf s a s', fdec_next ovf s = Val (a, s') -> 
  (NoDup (remembered s) /\ forall v, In v (remembered s) -> (v < 64)%N) -> (NoDup (remembered s') /\ forall v, In v (remembered s') -> (v < 64)%N) /\
  match a with Some f => (chan f < 64)%N | None => True end.
Proof.
  intros ovf [m cs] a s' E [ND B]. unfold fdec_next in E. cbn [fd_cadus fd_counters] in E. unfold remembered in *. cbn [fd_counters] in *.
  destruct cs as [|c cs]; [injection E as <- <-; auto|]. destruct (vcdu_decode (bl_data c)) as [[h|]|] eqn:D; [| |discriminate]; cbn [obind] in E.
  - destruct (if negb _ then _ else _) as [k|]; [|discriminate]. cbn [obind] in E. injection E as <- <-. apply vcid_64 in D. cbn [fd_counters]. split; [split|exact D].
    + apply nodup_aset. exact ND.
    + intros v I. apply keys_aset in I. destruct I as [->|I]; [exact D|apply B, I].
  - injection E as <- <-. auto.
Qed.
(* frame_decoder: one counter for each of at most 64 channels; its frames are of these channels *)
Theorem C103_frame_decoder : forall ovf cadus s, later (fdec_next ovf) (frame_decoder cadus) s -> length (remembered s) <= 64 /\
  forall f s', fdec_next ovf s = Val (Some f, s') -> (chan f < 64)%N.
Proof.
  intros ovf cadus s L. assert (K : NoDup (remembered s) /\ forall v, In v (remembered s) -> (v < 64)%N).
  { eapply (later_inv _ _ (fdec_next ovf) (fun s => NoDup (remembered s) /\ forall v, In v (remembered s) -> (v < 64)%N)); [|exact L|split; [constructor|intros v []]].
    intros s0 a s1 I E. apply (fdec_inv _ _ _ _ E I). }
  split; [apply below_64; apply K|]. intros f s' E. apply (fdec_inv _ _ _ _ E K).
Qed.
Print Assumptions C103_frame_decoder.

(* ---- Synchronizer ---- *)
Lemma pop_length : forall A (l : list A) x c, vec_pop l = Some (x, c) -> length l = S (length c).
Proof.
  intros A l x c E. unfold vec_pop in E. rewrite <- (rev_length l). destruct (rev l) as [|y r]; [discriminate|]. injection E as _ <-. cbn [length]. rewrite rev_length. reflexivity.
Qed.
Lemma pop_none : forall A (l : list A), vec_pop l = None -> l = [].
Proof. intros A l E. unfold vec_pop in E. destruct (rev l) eqn:R; [|discriminate]. rewrite <- (rev_involutive l), R. reflexivity. Qed.
Lemma next_cache : forall b x b', bytes_next b = (x, b') -> length (b_cache b') = length (b_cache b) - 1.
Proof.
  intros b x b' E. unfold bytes_next in E. destruct (vec_pop (b_cache b)) as [[y c]|] eqn:P.
  - injection E as _ <-. apply pop_length in P. cbn [b_cache]. lia.
  - apply pop_none in P. destruct (read 1 (b_reader b)) as [[[|y l]|k] r]; injection E as _ <-; cbn [b_cache]; rewrite P; reflexivity.
Qed.
Lemma push_cache : forall l b, length (b_cache (bytes_push l b)) = length (b_cache b) + length l.
Proof. intros l b. unfold bytes_push. cbn [b_cache]. rewrite app_length. reflexivity. Qed.
(* k bytes taken so far, the cache being c0 long before *)
Lemma try_cache : forall pat mask w b bs t c0, try_pattern pat mask w b bs = Val t -> length (b_cache bs) = c0 - length w ->
  match t with
  | TMatch _ bs' => length (b_cache bs') = c0 - (length w + length pat)
  | TFail w' bs' => length w < length w' <= length w + length pat /\ length (b_cache bs') = c0 - length w'
  | TReadErr _ bs' => length (b_cache bs') <= c0
  end.
Proof.
  induction pat as [|p pat IH]; intros mask w b bs t c0 E C; cbn [try_pattern] in E.
  - injection E as <-. cbn [length]. rewrite Nat.add_0_r. exact C.
  - destruct (bytes_next bs) as [[x|k] bs'] eqn:N; apply next_cache in N.
    + destruct mask as [|m mask]; [discriminate|]. destruct (negb _).
      * injection E as <-. rewrite app_length. cbn [length]. lia.
      * specialize (IH mask (w ++ [x]) x bs' t c0 E). rewrite app_length in IH. cbn [length] in IH. specialize (IH ltac:(lia)).
        destruct t; cbn [length]; lia.
    + injection E as <-. lia.
Qed.
Section Sync.
Variable asm : list N.
Let M := length asm + 1.
Definition synced (s : syncer) : Prop := sy_patterns s = fst (create_patterns asm) /\ sy_idx s < 8 /\ length (b_cache (sy_bytes s)) <= M.
Lemma shift_length : forall k l, length (left_shift_bytes l k) = length l.
Proof. intros k l. induction l as [|x [|y l] IH]; cbn [left_shift_bytes length] in *; [reflexivity|reflexivity|]. rewrite IH. reflexivity. Qed.
Lemma pattern_length : forall i p, get (fst (create_patterns asm)) i = Val p -> length p = if i =? 0 then length asm else M.
Proof.
  intros i p E. set (L := map (fun i => left_shift_bytes (0%N :: asm) (8 - i)) (seq 1 7)). unfold get in E. change (fst (create_patterns asm)) with (asm :: L) in E.
  destruct i as [|i]; cbn [nth_error] in E; [injection E as <-; reflexivity|]. destruct (nth_error L i) as [q|] eqn:Q; [|discriminate]. injection E as <-.
  apply nth_error_In in Q. apply in_map_iff in Q. destruct Q as (k & <- & _). rewrite shift_length. cbn [length Nat.eqb]. unfold M. lia.
Qed.
Lemma scan_cache : forall fuel s b r s', synced s -> scan_loop fuel s b = Val (r, s') -> synced s'.
Proof.
  induction fuel as [|fuel IH]; intros s b r s' (P & I & C) E; cbn [scan_loop] in E.
  { injection E as _ <-. repeat split; assumption. }
  destruct (get (sy_patterns s) (sy_idx s)) as [pat|] eqn:GP; [|discriminate]. cbn [obind] in E. destruct (get (sy_masks s) _) as [mask|]; [|discriminate]. cbn [obind] in E.
  destruct (try_pattern pat mask [] b (sy_bytes s)) as [t|] eqn:T; [|discriminate]. cbn [obind] in E.
  apply (try_cache _ _ _ _ _ _ (length (b_cache (sy_bytes s)))) in T; [|cbn [length]; lia]. rewrite P in GP. apply pattern_length in GP.
  assert (PM : length pat <= M) by (rewrite GP; destruct (_ =? 0); unfold M; lia).
  destruct t as [b' bs|w bs|k bs]; cbn [length] in T.
  - destruct (bytes_offset bs) as [off|]; [|discriminate]. cbn [obind] in E. injection E as _ <-. unfold synced, sy_set. cbn [sy_patterns sy_idx sy_bytes].
    split; [exact P|]. split; [exact I|]. destruct (0 <? sy_idx s) eqn:Z; [|unfold M in *; lia]. apply Nat.ltb_lt in Z. rewrite push_cache. cbn [length].
    destruct (Nat.eqb_spec (sy_idx s) 0) as [C0|_]; [lia|]. unfold M in *. lia.
  - destruct (sy_idx s + 1 =? 8) eqn:Z.
    + eapply IH; [|exact E]. unfold synced, sy_set. cbn [sy_patterns sy_idx sy_bytes]. split; [exact P|]. split; [lia|]. rewrite push_cache.
      assert (LR : length (removelast (rev w)) = length w - 1).
      { destruct w as [|y w]; [reflexivity|]. cbn [rev]. rewrite removelast_last, rev_length. cbn [length]. lia. }
      rewrite LR. lia.
    + apply Nat.eqb_neq in Z. eapply IH; [|exact E]. unfold synced, sy_set. cbn [sy_patterns sy_idx sy_bytes]. split; [exact P|]. split; [lia|]. rewrite push_cache, rev_length. lia.
  - destruct k; injection E as _ <-; unfold synced, sy_set; cbn [sy_patterns sy_idx sy_bytes]; repeat split; try assumption; lia.
Qed.
Lemma fill_cache : forall n b buf r b', bytes_fill n b = (buf, r, b') -> length (b_cache b') <= length (b_cache b) /\ ((exists x, r = inl x) -> length (b_cache b') <= length (b_cache b) - n).
Proof.
  intros n b buf r b' E. unfold bytes_fill in E. destruct (b_cache b) as [|x l] eqn:B.
  - destruct (read_exact n (b_reader b)) as [[got st] rr]. destruct st as [[]|]; injection E as _ <- <-; cbn [b_cache length]; lia.
  - destruct (length (x :: l) <? n) eqn:L.
    + destruct (read_exact _ (b_reader b)) as [[got st] rr]. destruct st as [k|]; injection E as _ <- <-; cbn [b_cache]; [|cbn [length]; lia].
      split; [lia|]. intros [y C]. discriminate.
    + injection E as _ <- <-. cbn [b_cache]. rewrite skipn_length. lia.
Qed.
Lemma block_cache : forall s r s', synced s -> sync_block s = Val (r, s') -> synced s'.
Proof.
  intros s r s' (P & I & C) E. unfold sync_block in E. destruct (bytes_fill _ (sy_bytes s)) as [[buf res] bs] eqn:F. apply fill_cache in F. destruct F as [F1 F2].
  destruct res as [ok|k].
  - specialize (F2 (ex_intro _ ok eq_refl)). destruct (sy_idx s =? 0) eqn:Z; cbn [negb] in E, F2.
    + cbn [obind] in E. destruct (left_shift _ _); [|discriminate]. cbn [obind] in E. destruct (slice _ _ _); [|discriminate]. cbn [obind] in E. injection E as _ <-.
      unfold synced, sy_set. cbn [sy_patterns sy_idx sy_bytes]. repeat split; try assumption. lia.
    + destruct (get buf _) as [x|]; [|discriminate]. cbn [obind] in E. destruct (left_shift _ _); [|discriminate]. cbn [obind] in E. destruct (slice _ _ _); [|discriminate]. cbn [obind] in E. injection E as _ <-.
      unfold synced, sy_set. cbn [sy_patterns sy_idx sy_bytes]. repeat split; try assumption. rewrite push_cache. cbn [length]. unfold M in *. lia.
  - injection E as _ <-. unfold synced, sy_set. cbn [sy_patterns sy_idx sy_bytes]. repeat split; try assumption. lia.
Qed.
(* Synchronizer: it never has more than a sync marker and one byte put back *)
Theorem C103_synchronizer : forall r len s, later biter_next (synchronize r asm len) s -> put_back s <= length asm + 1.
Proof.
  intros r len s L. assert (K : synced (bi_sync s)); [|apply K].
  eapply (later_inv _ _ biter_next (fun s => synced (bi_sync s))); [|exact L|].
  - intros s0 a s1 K E. unfold biter_next in E. destruct (scan (bi_sync s0)) as [[q sy]|] eqn:S0; [|discriminate]. cbn [obind] in E. apply scan_cache in S0; [|exact K].
    destruct q as [l| |k|]; [|injection E as _ <-; exact S0|injection E as _ <-; exact S0|discriminate].
    destruct (if _ =? _ then _ else _) as [last|]; [|discriminate]. cbn [obind] in E. destruct (sync_block sy) as [[br sy']|] eqn:BL; [|discriminate]. cbn [obind] in E.
    apply block_cache in BL; [|exact S0]. destruct br; injection E as _ <-; exact BL.
  - unfold synchronize, synced, syncer_new. destruct (create_patterns asm) as [p m] eqn:CP. cbn [bi_sync sy_patterns sy_idx sy_bytes bytes_new b_cache length]. unfold M. repeat split; lia.
Qed.
End Sync.
Print Assumptions C103_synchronizer.

(* ---- Summary ---- *)
Lemma same_keys_aset : forall (A B : Type) k (x : A) (y : B) m m', map fst m = map fst m' -> map fst (aset k x m) = map fst (aset k y m').
Proof.
  intros A B k x y m. induction m as [|[a v] m IH]; intros [|[b w] m'] E; try discriminate E; [reflexivity|].
  cbn [map fst] in E. injection E as -> E. cbn [aset]. destruct (k =? b)%N; cbn [map fst]; f_equal; [exact E|apply IH; exact E].
Qed.
(* Summary: figures and the last header of at most 2048 apids, whatever number of packets it was given *)
Theorem C103_summary : forall ovf ps s, Forall (fun p => (apid (p_header p) < 2048)%N) ps -> summary_add_all ovf summary0 ps = Val s ->
  NoDup (figures s) /\ (forall a, In a (figures s) -> exists p, In p ps /\ a = apid (p_header p)) /\ (N.of_nat (length (figures s)) <= 2048)%N /\
  last_seen s = figures s.
Proof.
  intros ovf ps s B E.
  assert (K : forall ps s0, NoDup (figures s0) -> summary_add_all ovf s0 ps = Val s -> NoDup (figures s) /\ forall a, In a (figures s) -> In a (figures s0) \/ exists p, In p ps /\ a = apid (p_header p)).
  { clear. intros ps. induction ps as [|p ps IH]; intros s0 ND E; cbn [summary_add_all] in E; [injection E as <-; auto|].
    destruct (summary_add ovf s0 p) as [s1|] eqn:A; [|discriminate]. cbn [obind] in E.
    assert (F : exists x, s_apids s1 = aset (apid (p_header p)) x (s_apids s0)).
    { unfold summary_add in A. cbv zeta in A. destruct (match aget _ (s_seen s0) with Some _ => _ | None => _ end); [|discriminate]. cbn [obind] in A. injection A as <-. eexists. reflexivity. }
    destruct F as [x F]. assert (ND1 : NoDup (figures s1)) by (unfold figures; rewrite F; apply nodup_aset; exact ND).
    destruct (IH s1 ND1 E) as [N2 I2]. split; [exact N2|]. intros a I. destruct (I2 a I) as [J|(q & J & ->)].
    - unfold figures in J. rewrite F in J. apply keys_aset in J. destruct J as [->|J]; [right; exists p; split; [left|]; reflexivity|left; exact J].
    - right. exists q. split; [right; exact J|reflexivity]. }
  assert (W : forall ps s0, last_seen s0 = figures s0 -> summary_add_all ovf s0 ps = Val s -> last_seen s = figures s).
  { clear. intros ps. induction ps as [|p ps IH]; intros s0 L E; cbn [summary_add_all] in E; [injection E as <-; exact L|].
    destruct (summary_add ovf s0 p) as [s1|] eqn:A; [|discriminate]. cbn [obind] in E. apply (IH s1); [|exact E].
    unfold summary_add in A. cbv zeta in A. destruct (match aget _ (s_seen s0) with Some _ => _ | None => _ end); [|discriminate]. cbn [obind] in A. injection A as <-.
    unfold last_seen, figures. cbn [s_seen s_apids]. apply same_keys_aset. exact L. }
  destruct (K ps summary0 (NoDup_nil _) E) as [ND I]. split; [exact ND|]. split; [|split].
  - intros a J. destruct (I a J) as [[]|X]. exact X.
  - assert (X : incl (figures s) (map N.of_nat (seq 0 (N.to_nat 2048)))).
    { intros a J. destruct (I a J) as [[]|(p & Q & ->)]. rewrite Forall_forall in B. specialize (B p Q). apply in_map_iff. exists (N.to_nat (apid (p_header p))).
      split; [apply N2Nat.id|]. apply in_seq. lia. }
    apply NoDup_incl_length in X; [|exact ND]. rewrite map_length, seq_length in X. lia.
  - apply (W ps summary0 eq_refl E).
Qed.
Print Assumptions C103_summary.

(* ---- the hypotheses can be met ---- *)
(* three frames of 100 bytes; the first bytes of a packet of 65542 bytes are kept *)
Example C103_packet_decoder_ex : exists s, later (fpiter_next 0 0) (packet_decoder (first_part 100 :: repeat (next_part 100) 2)) s /\
  unfinished s 5 = 300 /\ channels s = [5%N] /\ found s = 0 /\ (N.of_nat (unfinished s 5) < LONGEST)%N /\ (N.of_nat (total_unfinished s) <= 64 * (LONGEST - 1))%N.
Proof.
  assert (B : Forall (fun f => bytes_ok (f_data f)) (first_part 100 :: repeat (next_part 100) 2)).
  { constructor; [apply part_ok; repeat constructor|]. apply Forall_forall. intros f I. apply repeat_spec in I. subst f. apply part_ok. repeat constructor. }
  eexists. assert (L : later (fpiter_next 0 0) (packet_decoder (first_part 100 :: repeat (next_part 100) 2)) (mkFpiter [] [(5%N, mkTracker true (sofar 100 3) false)] [])).
  { eapply later_next; [vm_compute; reflexivity|apply later_now]. }
  split; [exact L|]. split; [reflexivity|]. split; [reflexivity|]. split; [reflexivity|]. split.
  - apply (C103_packet_decoder 0 0 _ _ B L).
  - apply (C103_packet_decoder_total 0 0 _ _ B); [|exact L]. repeat constructor.
Qed.
Definition mm_cadu (v k : N) : block := mkBlock 0 (mkLoc 0 0) [64; v; 0; 0; k; 0; 0; 0]%N.
Example C103_frame_decoder_ex : exists s, later (fdec_next true) (frame_decoder [mm_cadu 5 1; mm_cadu 6 1; mm_cadu 5 2; mm_cadu 7 1]) s /\ remembered s = [5; 6]%N /\ length (remembered s) <= 64 /\
  exists f s', fdec_next true s = Val (Some f, s') /\ chan f = 7%N.
Proof.
  eexists. assert (L : later (fdec_next true) (frame_decoder [mm_cadu 5 1; mm_cadu 6 1; mm_cadu 5 2; mm_cadu 7 1]) (mkFdec [(5, 2); (6, 1)]%N [mm_cadu 7 1])).
  { eapply later_next; [vm_compute; reflexivity|]. eapply later_next; [vm_compute; reflexivity|]. eapply later_next; [vm_compute; reflexivity|]. apply later_now. }
  split; [exact L|]. split; [reflexivity|]. split; [apply (C103_frame_decoder true _ _ L)|]. do 2 eexists. split; [vm_compute; reflexivity|reflexivity].
Qed.
(* a marker one bit late: the byte behind the block is put back, because its first bit belongs to the block *)
Example C103_synchronizer_ex : exists s, later biter_next (synchronize (reader_of [13; 103; 254; 14; 129; 0; 0]%N) [26; 207; 252; 29]%N 1) s /\ put_back s = 1 /\ put_back s <= 4 + 1.
Proof.
  assert (L : exists s, later biter_next (synchronize (reader_of [13; 103; 254; 14; 129; 0; 0]%N) [26; 207; 252; 29]%N 1) s /\ put_back s = 1).
  { eexists. split; [eapply later_next; [vm_compute; reflexivity|apply later_now]|reflexivity]. }
  destruct L as (s & L & E). exists s. split; [exact L|]. split; [exact E|]. apply (C103_synchronizer [26; 207; 252; 29]%N _ _ _ L).
Qed.
Definition mm_pkt (a i : N) : packet := mkPacket (mkHeader 0 0 false a 3 i 0) [0; a; 192; i; 0; 0; 1]%N 0.
Example C103_summary_ex : exists s, summary_add_all true summary0 [mm_pkt 7 1; mm_pkt 9 1; mm_pkt 7 2] = Val s /\ figures s = [7; 9]%N /\ (N.of_nat (length (figures s)) <= 2048)%N /\ last_seen s = figures s.
Proof.
  eexists. split; [vm_compute; reflexivity|]. split; [reflexivity|]. eapply (C103_summary true [mm_pkt 7 1; mm_pkt 9 1; mm_pkt 7 2]); [repeat constructor|vm_compute; reflexivity].
Qed.
(* three frames of 100 bytes are kept whole; 65 frames of 1000 bytes *)
Example C103_one_frame_of_data_refuted_ex : exists frames s, length frames = 65 /\ Forall (fun f => length (payload_of 0 0 f) = 1000) frames /\
  fpiter_next 0 0 (packet_decoder frames) = Val (None, s) /\ unfinished s 5 = 65 * 1000.
Proof. apply C103_one_frame_of_data_refuted; [lia|lia|vm_compute; reflexivity]. Qed.
