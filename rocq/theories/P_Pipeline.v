(* Properties C48 and C55: the assembled pipeline *)
From Verif Require Import Base S_Bits S_Packet S_Pn S_Sync S_Frame S_FramePackets S_ReedSolomon S_Pipeline
  M_Reader M_Packet M_Bytes M_Sync M_Pn M_Frame M_FramePackets M_ReedSolomon M_RsPipeline M_Pipeline
  L_Base L_Bits L_Packet L_Pn L_Frame L_FramePackets L_FramePackets2 L_ReedSolomon L_RsPipeline L_Pipeline L_Sync L_SyncBits L_SyncRun L_SyncIter L_SyncSafe L_SyncFail
  P_Pn P_Sync P_FramePackets P_ReedSolomon P_RsPipeline.
Open Scope nat_scope.

Lemma ended_all : forall F (job : F -> outcome F) buf n frames s, reachable job buf n frames s -> st_consumer s = CEnded ->
  Forall2 (fun f f' => job f = Val f') frames (st_recv s).
Proof.
  intros F job buf n frames s R E. destruct (inv_reachable _ _ _ _ _ R) as [d I].
  destruct (i_ended _ _ _ _ I E) as [D _]. destruct (i_ddone _ _ _ _ I D) as [SU JO]. eapply complete; eassumption.
Qed.
Lemma oks_map_Ok : forall A (l : list A), oks (map Ok l) = l.
Proof. induction l; cbn; congruence. Qed.
Lemma Forall2_unique : forall A B (P : A -> B -> Prop), (forall x y z, P x y -> P x z -> y = z) -> forall l m n, Forall2 P l m -> Forall2 P l n -> m = n.
Proof. intros A B P U l m n H. revert n. induction H; intros n H'; inversion H'; subst; f_equal; eauto. Qed.

(* ---- C48 ---- *)
(* A link: [us] are the units sent, in order, of any mix of virtual channels, 63 being fill. The frames
   of every other channel v carry the bytes a v .. e v - 1 of the packets ws v. The stream bs holds the
   units' blocks behind markers, at any bit alignment, between junk and tail bits without a marker; it
   arrives in chunks of any sizes. The blocks are randomized unless that is switched off, and, with
   Reed-Solomon, may be damaged as far as the codec recovers. Then, for every interleaving of the
   threads, the packets decoded are, channel by channel, exactly those sent completely. *)
Theorem C48_end_to_end : forall izone trailer ovf k nthreads p ws us c a e r bs junk tail,
  us <> [] -> 1 <= nthreads ->
  (forall v, Forall wire_ok (ws v)) -> (forall v, Forall telemetry (ws v)) ->
  match pl_rs p with None => True | Some o => 1 <= ro_interleave o /\ ro_virtual_fill o <= 223 * ro_interleave o end ->
  6 + izone + 2 + trailer <= pl_block_length p ->
  Forall (transmitted k p) us ->
  (forall v, (v < 63)%N -> sends izone trailer v (ws v) (c v) (a v) (map s_frame (filter (on_channel v) us)) (e v)) ->
  bytes_ok bs -> delivers r bs ->
  bits bs = junk ++ flat_map (cadu_bits ASM) (map s_block us) ++ tail ->
  no_more ASM junk 0 -> no_more ASM tail 0 ->
  (exists out, pipeline_start ovf k nthreads p r out) /\
  forall out, pipeline_start ovf k nthreads p r out ->
    map (fun f => v_vcid (f_header f)) out = map s_vcid us /\
    Forall (fun f => f_missing f = 0%N) out /\
    exists cs, length cs = length out /\
      yields (fpiter_next izone trailer) (packet_decoder out) (concat cs) /\
      forall v, (v < 63)%N ->
        (* what the frames of channel v contributed *)
        concat (map snd (filter (fun fc => is_chan v (fst fc)) (combine out cs))) =
        map pk (map snd (filter (between (a v) (e v)) (with_pos 0 (ws v)))).
Proof.
  intros izone trailer ovf k nthreads p ws us c a e r bs junk tail HU HN HW HT HR HL HTr HS Hb HD EB HJ HTa.
  (* channels above 63 do not exist *)
  assert (HV : Forall (fun u => (s_vcid u < 64)%N) us) by (eapply Forall_impl; [|exact HTr]; intros u X; apply X).
  set (e' := fun v => if (v <? 63)%N then e v else a v).
  assert (HS' : forall v, (v <> 63)%N -> sends izone trailer v (ws v) (c v) (a v) (map s_frame (filter (on_channel v) us)) (e' v)).
  { intros v Hv. unfold e'. destruct (N.ltb_spec v 63); [apply HS; assumption|].
    replace (filter (on_channel v) us) with (@nil sent); [constructor|]. symmetry. apply filter_none. intros u I.
    rewrite Forall_forall in HV. specialize (HV u I). unfold on_channel. lia. }
  (* blocks *)
  destruct (C25_standard_marker_round_trip (pl_block_length p) r bs junk (map s_block us) tail Hb HD EB) as (items & Y1 & EI); try assumption.
  { apply Forall_map. eapply Forall_impl; [|exact HTr]. intros u (_ & cw & _ & A & B & _). auto. }
  { destruct us; [congruence|discriminate]. }
  set (blocks := if pl_derandomize p then derandomize items else items).
  assert (UB : Forall2 (unit_block k p) us blocks).
  { unfold blocks. clear -EI HTr. revert items EI. induction HTr as [|u us (V & cw & Hc & H2 & H3 & H4 & H5) _ IH]; intros items EI.
    - destruct items; [|discriminate]. destruct (pl_derandomize p); constructor.
    - destruct items as [|b items]; [discriminate|]. cbn [map] in EI. injection EI as Eb EI. specialize (IH items EI).
      destruct (pl_derandomize p).
      + constructor; [|exact IH]. unfold unit_block, derandomize_cadu. cbn [bl_data]. rewrite Eb.
        assert (DR := derandomized cw (s_block u) Hc H4). rewrite DR. destruct H4 as (_ & LL & _).
        repeat (split; [assumption || congruence|]). exact H5.
      + constructor; [|exact IH]. unfold unit_block. rewrite Eb, H4. rewrite H4 in H3. auto. }
  (* frames *)
  destruct (decode_units izone trailer ovf k p ws HW us blocks UB [] c a e' HS') as (fs & DD & FF); [intros; left; reflexivity|].
  assert (Y2 : yields (fdec_next ovf) (frame_decoder blocks) fs) by (apply (decoded_iff ovf blocks [] [] fs); [intro; reflexivity|exact DD]).
  (* the final frames *)
  assert (OUT : (exists out, pipeline_start ovf k nthreads p r out) /\ forall out, pipeline_start ovf k nthreads p r out -> Forall2 (unit_out p) us out).
  { assert (DET : forall out, pipeline_start ovf k nthreads p r out -> match pl_rs p with None => out = fs | Some o =>
        exists s, reachable (rs_job k (rs_of_opts o)) (ro_buffer_size o) nthreads fs s /\ st_consumer s = CEnded /\ st_recv s = out end).
    { intros out [items' blocks' frames out' Z1 Z2 Z3 Z4]. assert (items' = map Ok items) by (eapply yields_det; [exact Z1|exact Y1]). subst items'.
      rewrite oks_map_Ok in Z2. fold blocks in Z2. subst blocks'. 
      assert (frames = fs) by (destruct Z3 as [Z3|[_ Z3]]; [eapply yields_det; [exact Z3|exact Y2]|destruct (yields_not_panics _ _ _ _ _ _ Y2 Z3)]). subst frames.
      destruct (pl_rs p); [exact Z4|congruence]. }
    destruct (pl_rs p) as [o|] eqn:ER.
    - assert (JOBS : exists out, Forall2 (fun f f' => rs_job k (rs_of_opts o) f = Val f') fs out /\ Forall2 (unit_out p) us out).
      { clear -FF ER HR. induction FF as [|u f us fs U _ IH]; [exists []; split; constructor|]. destruct IH as (out & A & B).
        destruct (unit_rs k p o ER (proj1 HR) (proj2 HR) u f U) as (f' & C & D). exists (f' :: out). split; constructor; assumption. }
      destruct JOBS as (out & J1 & J2). split.
      + destruct (C46_can_finish _ (rs_job k (rs_of_opts o)) (ro_buffer_size o) nthreads fs (init fs)) as (ls & s' & E1 & _ & E2 & _); try assumption.
        * intros f I X. clear -J1 I X. induction J1 as [|g g' fs out J _ IH]; [destruct I|]. destruct I as [<-|I]; [congruence|exact (IH I)].
        * exists []. constructor.
        * discriminate.
        * exists (st_recv s'). eapply start_intro; [exact Y1|reflexivity| |].
          -- rewrite oks_map_Ok. left. exact Y2.
          -- rewrite ER. exists s'. split; [exists ls; exact E1|auto].
      + intros out' P. destruct (DET out' P) as (s & S1 & S2 & S3). assert (X := ended_all _ _ _ _ _ _ S1 S2). rewrite S3 in X.
        replace out' with out; [exact J2|]. eapply Forall2_unique; [|exact J1|exact X]. intros; cbn in *; congruence.
    - assert (J2 : Forall2 (unit_out p) us fs).
      { clear -FF ER. induction FF; constructor; [eapply unit_no_rs; eassumption|assumption]. }
      split.
      + exists fs. eapply start_intro; [exact Y1|reflexivity| |rewrite ER; reflexivity]. rewrite oks_map_Ok. left. exact Y2.
      + intros out P. rewrite (DET out P). exact J2. }
  destruct OUT as [EX OUT]. split; [exact EX|]. intros out P. specialize (OUT out P).
  split. { clear -OUT. induction OUT as [|u f us fs (V & _) _ IH]; [reflexivity|]. cbn. congruence. }
  split. { clear -OUT. induction OUT as [|u f us fs (_ & M & _) _ IH]; constructor; assumption. }
  assert (FOK := out_frames_ok izone trailer p ws HW us out c a e' HV OUT HS' HL).
  destruct (C37_channels_independent izone trailer out FOK) as (cs & LC & Y & CH).
  exists cs. split; [exact LC|]. split; [exact Y|]. intros v Hv.
  destruct (channel_out p v us out ltac:(lia) OUT) as (A & B & C).
  assert (CA := sends_carries izone trailer ws HW v _ _ _ _ ltac:(lia) (HS v Hv) _ A).
  assert (RE := C36_reassembly izone trailer (ws v) v _ _ _ (HW v) (HT v) CA C).
  eapply yields_det; [apply CH|]. apply RE.
  destruct (filter (is_chan v) out); [exact B|]. inversion B; assumption.
Qed.
Print Assumptions C48_end_to_end.

(* a link that meets the hypotheses: channels 3 and 5 and a fill unit, randomized, with check symbols *)
Definition ok_codec : codec := mkCodec (fun _ => false) (fun w => (RsOk, Some w)).
Definition ex_pl : pipeline := pipeline_with_rs (pipeline_new 55) (mkRsOpts 1 200 2 3 true true).
Definition ex_pkt (ap : N) (n : nat) : wire_packet := mkWire (mkHeader 0 0 false ap 3 7 (N.of_nat n - 1)) (repeat 170%N n).
Definition ex_wss (v : N) : list wire_packet :=
  if (v =? 3)%N then [ex_pkt 5 9] else if (v =? 5)%N then [ex_pkt 6 24] else [].
Definition ex_frm (v c : N) (ptr : nat) (payload : list N) : list N := aos_frame 157 v c 0 [] 0 ptr payload [].
Definition ex_unit (v : N) (frm : list N) : sent := mkSent v frm (derandomize_bytes (frm ++ repeat 77%N 32)).
Definition ex_us : list sent :=
  [ex_unit 3 (ex_frm 3 9 0 (stream (ex_wss 3)));
   ex_unit 5 (ex_frm 5 100 0 (firstn 15 (stream (ex_wss 5))));
   ex_unit 63 (ex_frm 63 4 2046 (repeat 0%N 15));
   ex_unit 5 (ex_frm 5 101 2047 (skipn 15 (stream (ex_wss 5))))].
Definition ex_stream : list N := concat (map (fun u => ASM ++ s_block u) ex_us).
Lemma ex_starts3 : forall y, starts_at (ex_wss 3) y -> y = 0.
Proof. intros y [w [H|[]]]. injection H as <- _. reflexivity. Qed.
Lemma ex_starts5 : forall y, starts_at (ex_wss 5) y -> y = 0.
Proof. intros y [w [H|[]]]. injection H as <- _. reflexivity. Qed.
Lemma randomized_derandomize : forall cw, bytes_ok cw -> randomized cw (derandomize_bytes cw).
Proof.
  intros cw H. destruct (C30_derandomize_length_bytes cw) as [L B]. split; [apply B; exact H|]. split; [exact L|].
  intros n Hn. apply C30_derandomize_bits. exact Hn.
Qed.
Ltac bytes_tac := repeat (constructor; [reflexivity|]); constructor.
Example C48_ex :
  (exists out, pipeline_start true ok_codec 2 ex_pl (reader_of ex_stream) out) /\
  forall out, pipeline_start true ok_codec 2 ex_pl (reader_of ex_stream) out ->
    map (fun f => v_vcid (f_header f)) out = [3; 5; 63; 5]%N /\
    exists cs, yields (fpiter_next 0 0) (packet_decoder out) (concat cs) /\
      concat (map snd (filter (fun fc => is_chan 3 (fst fc)) (combine out cs))) = [pk (ex_pkt 5 9)] /\
      concat (map snd (filter (fun fc => is_chan 5 (fst fc)) (combine out cs))) = [pk (ex_pkt 6 24)].
Proof.
  assert (NM : no_more ASM [] 0).
  { intros q _ X. apply occurs_bound in X; [cbn in X; lia|discriminate]. }
  destruct (C48_end_to_end 0 0 true ok_codec 2 ex_pl ex_wss ex_us (fun v => if (v =? 3)%N then 9 else if (v =? 5)%N then 100 else 0)%N (fun _ => 0)
     (fun v => if (v =? 3)%N then 15 else if (v =? 5)%N then 30 else 0) (reader_of ex_stream) ex_stream [] []) as [EX H]; try exact NM.
  - discriminate.
  - lia.
  - intro v. unfold ex_wss. destruct (v =? 3)%N; [|destruct (v =? 5)%N]; repeat constructor; bytes_tac.
  - intro v. unfold ex_wss. destruct (v =? 3)%N; [|destruct (v =? 5)%N]; repeat constructor.
  - cbn. lia.
  - cbn. lia.
  - assert (K : forall v frm, (v < 64)%N -> bytes_ok frm -> length frm = 23 ->
      (v = 63%N -> exists rest, frm = aos_header 157 63 4 0 ++ rest) -> transmitted ok_codec ex_pl (ex_unit v frm)).
    { intros v frm HV HB HL HF. split; [exact HV|]. exists (frm ++ repeat 77%N 32).
      assert (HB2 : bytes_ok (frm ++ repeat 77%N 32)) by (apply bytes_ok_app; split; [exact HB|bytes_tac]).
      assert (R := randomized_derandomize _ HB2). split; [exact HB2|]. split; [apply R|]. split; [cbn [ex_unit s_block]; destruct R as (_ & R & _); rewrite R, app_length, HL; reflexivity|].
      split; [exact R|]. unfold arrives. cbn [ex_unit s_vcid s_frame]. destruct (N.eqb_spec v 63) as [EV|NV].
      - destruct (HF EV) as [rest ->]. exists 157%N, 4%N, 0%N, (rest ++ repeat 77%N 32). rewrite app_assoc. repeat split; reflexivity.
      - cbn [ex_pl pipeline_with_rs pl_rs]. exists (repeat 77%N 32). split; [reflexivity|]. split; [reflexivity|]. split; [rewrite app_length, HL; reflexivity|].
        split.
        + intros i Hi. split; [reflexivity|]. eexists; eexists. split; [reflexivity|]. split; [discriminate|]. rewrite codeword_length. split; [lia|reflexivity].
        + destruct frm as [|x0 [|x1 [|x2 [|x3 [|x4 [|x5 frm]]]]]]; try discriminate. reflexivity. }
    repeat apply Forall_cons; try apply Forall_nil; apply K; try reflexivity; try (intro; discriminate); try bytes_tac.
    intros _. eexists. unfold ex_frm, aos_frame. reflexivity.
  - intros v Hv. cbn beta. destruct (N.eqb_spec v 3) as [->|N3]; [|destruct (N.eqb_spec v 5) as [->|N5]].
    + apply (sends_cons 0 0 3%N (ex_wss 3) 9%N 0 15 157%N 0%N [] 0%N 0 [] [] 15); try reflexivity; try constructor; try (cbn; lia).
      exists 0. split; [exists (ex_pkt 5 9); left; reflexivity|]. split; [lia|]. split; [intros y Y; apply ex_starts3 in Y; lia|reflexivity].
    + apply (sends_cons 0 0 5%N (ex_wss 5) 100%N 0 15 157%N 0%N [] 0%N 0 [] [ex_frm 5 101 2047 (skipn 15 (stream (ex_wss 5)))] 30); try reflexivity; try constructor; try (cbn; lia).
      * exists 0. split; [exists (ex_pkt 6 24); left; reflexivity|]. split; [lia|]. split; [intros y Y; apply ex_starts5 in Y; lia|reflexivity].
      * apply (sends_cons 0 0 5%N (ex_wss 5) 101%N 15 15 157%N 0%N [] 0%N 2047 [] [] 30); try reflexivity; try (constructor; fail); try (cbn; lia).
        right. split; [|reflexivity]. intros y Y. apply ex_starts5 in Y. lia.
    + replace (filter (on_channel v) ex_us) with (@nil sent); [constructor|]. unfold ex_us, on_channel. cbn [filter ex_unit s_vcid].
      destruct (N.eqb_spec 3 v); [congruence|]. destruct (N.eqb_spec 5 v); [congruence|]. destruct (N.eqb_spec 63 v); [lia|reflexivity].
  - vm_compute. bytes_tac.
  - apply delivers_file. discriminate.
  - cbn [app]. rewrite app_nil_r. unfold ex_stream. generalize ex_us. induction l as [|u l IH]; [reflexivity|].
    cbn [map concat flat_map]. rewrite !bits_app, IH. reflexivity.
  - split; [exact EX|]. intros out P. destruct (H out P) as (A & _ & cs & _ & Y & C). split; [exact A|]. exists cs. split; [exact Y|].
    split; [exact (C 3%N eq_refl)|exact (C 5%N eq_refl)].
Qed.

(* ---- C55 ---- *)
(* A reader that delivers any data and then fails for ever, without ever reporting end of file: after
   finitely many blocks a call on the iterator never returns *)
Theorem C55_failing_reader_hangs_refuted : forall asm len r code, asm <> [] ->
  fin r = Failing code -> Forall (fun t => t <> TEof /\ t <> TErr UnexpectedEof) (vtranscript (evs r)) ->
  exists bs s', drawn (synchronize r asm len) bs s' /\ forall fuel, blocks_next fuel s' = None.
Proof.
  intros asm len r code Hn HF HL. eapply live_draws; [exact Hn|apply le_n|apply binv_start; exact Hn|].
  unfold synchronize, syncer_new. destruct (create_patterns asm). split; [exact HL|exists code; exact HF].
Qed.
Print Assumptions C55_failing_reader_hangs_refuted.
(* every other reader: every call returns, and the whole iteration ends *)
Theorem C55_returns_on_finite_readers : forall asm len r, asm <> [] -> fin r = AtEof ->
  exists items, yields biter_next (synchronize r asm len) items /\
  forall bs s', drawn (synchronize r asm len) bs s' -> exists fuel o, blocks_next fuel s' = Some o.
Proof.
  intros asm len r Hn HF. destruct (C28_terminates asm len r Hn HF) as (items & Y & _). exists items. split; [exact Y|].
  intros bs s' D. assert (Z : exists l, yields biter_next s' l).
  { assert (Y' : exists l, yields biter_next (synchronize r asm len) l) by eauto. clear Y. induction D as [s|s fuel b s1 bs s2 N1 _ IH]; [exact Y'|].
    apply IH. destruct Y' as [l Y']. clear -N1 Y'. revert s l Y' N1. induction fuel as [|fuel IHf]; intros s l Y N1; [discriminate|].
    unfold blocks_next in N1. cbn [filter_ok_next] in N1. inversion Y as [? ? E|? ? x ? E Y1]; subst; rewrite E in N1; [discriminate|].
    destruct x as [b0|e]; [injection N1 as _ <-; eauto|eapply IHf; eassumption]. }
  destruct Z as [l Z]. apply (filter_ok_returns _ _ biter_next s' l). left. exact Z.
Qed.
Print Assumptions C55_returns_on_finite_readers.
Example C55_ex : forall fuel, blocks_next fuel (synchronize (mkReader [] (Failing 5)) ASM 3) = None.
Proof.
  intro fuel. destruct (dead_hangs ASM 3 ltac:(discriminate) fuel (synchronize (mkReader [] (Failing 5)) ASM 3) 5); try reflexivity.
  - apply binv_start. discriminate.
  - split; reflexivity.
Qed.
