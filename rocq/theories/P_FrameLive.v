(* C81: the framing command as it runs, on any reader *)
From Coq Require Import Sorted.
From Verif Require Import Base S_Framing S_RsPipeline S_Bits S_Packet S_Sync S_Frame S_FrameLive M_Reader M_Packet M_Bytes M_Sync M_Pn M_Frame M_ReedSolomon M_RsPipeline M_Live S_Live S_Pause M_Pipeline M_Pause
  M_Merge M_Cli S_Cli M_Main S_Main M_FrameLive L_Base L_Frame L_Live L_Pause L_Merge L_SyncSafe L_SyncReads L_SyncTwin P_Pn P_Sync P_Frame P_CliFilter P_CliFrame P_Main P_Main2 P_Live P_LiveCmd
  S_ReedSolomon L_ReedSolomon L_RsPipeline P_ReedSolomon P_RsPipeline P_RsLive P_Pipeline P_Rollover L_FrameLive.
Open Scope nat_scope.

(* ---- the synchronizer ---- *)
(* Every reader gives CADUs and errors and then an end, or errors for ever; it does so in one way, and never panics *)
Theorem C81_every_stream : forall r asm len, asm <> [] ->
  exists items h, reads biter_next (synchronize r asm len) items h /\ h <> Breaks /\ (fin r = AtEof -> h <> Forever).
Proof. intros r asm len H. apply sync_reads. exact H. Qed.
Print Assumptions C81_every_stream.
Theorem C81_one_way : forall s items h items' h', reads biter_next s items h -> reads biter_next s items' h' ->
  h = h' /\ keep_ok items = keep_ok items' /\ (h <> Forever -> items = items').
Proof. intros s. apply reads_one_way. Qed.
Print Assumptions C81_one_way.
(* A device that delivers bytes and then fails for ever: all CADUs that lie completely within these bytes, at whatever bit
   offset, are returned before the errors begin *)
Theorem C81_failing_device : forall asm len r bs c, bytes_ok asm -> asm <> [] -> bytes_ok bs ->
  vtranscript (evs r) = map TByte bs -> fin r = Failing c ->
  exists blocks, whole_blocks asm len (bits bs) 0 0 blocks /\ reads biter_next (synchronize r asm len) (map Ok blocks) Forever.
Proof. exact sync_fails. Qed.
Print Assumptions C81_failing_device.

(* ---- the frames ---- *)

Theorem C81_frames : forall ovf p r items h frames st, reads biter_next (synchronize r ASM (pl_block_length p)) items h ->
  frames_read ovf (cadus_of p items) (status_of h) frames st ->
  exists h', pulls (frames_live ovf (pl_derandomize p)) (frames_new r (pl_block_length p)) frames h' /\ status_of h' = st.
Proof.
  intros ovf p r items h frames st R F. apply (pulls_blocks (pl_derandomize p)) in R. unfold frames_live, frames_new, decoding_new. destruct F as [frames Y|frames Y].
  - eapply decoding_once; [exact R|exact Y].
  - exists Breaks. split; [|reflexivity]. eapply decoding_breaks; [exact R|exact Y].
Qed.
Print Assumptions C81_frames.

(* ---- the command ---- *)
Lemma no_rs_length : forall a len p i e, framing_setup a = Some (len, p, i, e) -> pl_rs p = None -> pl_block_length p = len.
Proof.
  intros a len p i e HS NR. destruct (setup_inv _ _ _ _ _ HS) as (i0 & e0 & _ & _ & _ & _ & _ & pn & rs & vf & -> & _).
  rewrite frame_pipeline_is in *. cbn [pl_rs pl_block_length] in *. destruct rs; [discriminate|lia].
Qed.
Lemma cadus_length : forall p r items h, reads biter_next (synchronize r ASM (pl_block_length p)) items h ->
  Forall (fun b => length (bl_data b) = pl_block_length p) (cadus_of p items).
Proof.
  intros p r items h R. assert (HO := reads_lengths ASM _ ltac:(discriminate) _ _ _ R (binv_start ASM _ ltac:(discriminate) r)).
  unfold cadus_of. destruct (pl_derandomize p); [|exact HO]. apply Forall_map. eapply Forall_impl; [|exact HO].
  cbn. intros b <-. unfold derandomize_cadu. cbn [bl_data]. apply C30_derandomize_length_bytes.
Qed.
Lemma frames_read_or : forall ovf cs h frames st, frames_read ovf cs h frames st ->
  yields (fdec_next ovf) (frame_decoder cs) frames \/ panics_after (fdec_next ovf) (frame_decoder cs) frames.
Proof. intros ovf cs h frames st [? Y|? Y]; auto. Qed.
Lemma command_shown : forall ovf creatable r a len p i e n, framing_setup a = Some (len, p, i, e) ->
  (forall o, fr_output a = Some o -> creatable o = true) ->
  framing_command_live ovf creatable (Some r) a n =
    let x := framing_live ovf len p (fr_keep_fill a) i e (negb (is_none (fr_output a))) r n in
    shown (snd x) (match fr_output a with Some _ => Some (fc_out (fst x)) | None => None end) (fc_all (fst x), apid_sort (fc_vcids (fst x))).
Proof.
  intros ovf creatable r a len p i e n HS CR. unfold framing_command_live. rewrite HS.
  assert (match fr_output a with Some o => creatable o | None => true end = true) as -> by (destruct (fr_output a); [apply CR|]; reflexivity).
  cbn [negb]. destruct (framing_live _ _ _ _ _ _ _ _ n) as [c st]. destruct st; reflexivity.
Qed.

Theorem C81_framing : forall ovf creatable r a len p i e include exclude items h frames st sel good,
  framing_setup a = Some (len, p, i, e) -> pl_rs p = None ->
  stands_for (fr_include a) include -> stands_for (fr_exclude a) exclude ->
  (forall o, fr_output a = Some o -> creatable o = true) ->
  reads biter_next (synchronize r ASM len) items h ->
  frames_read ovf (cadus_of p items) (status_of h) frames st ->
  kept (looked_at a include exclude) frames sel -> kept usable sel good ->
  exists all rows,
    eventually (framing_command_live ovf creatable (Some r) a)
      (shown st (option_map (fun _ => concat (map f_data good)) (fr_output a)) (all, rows)) /\
    (st = Running -> forall n, fst (fst (framing_command_live ovf creatable (Some r) a n)) = Going) /\
    tallies sel all /\
    StronglySorted N.lt (map fst rows) /\
    (forall v, In v (map fst rows) <-> exists f, In f sel /\ v_vcid (f_header f) = v) /\
    (forall v t, In (v, t) rows -> tallies (filter (fun f => (v_vcid (f_header f) =? v)%N) sel) t).
Proof.
  intros ovf creatable r a len p i e include exclude items h frames st sel good HS NR SI SE CR R FR K1 K2.
  assert (BL := no_rs_length _ _ _ _ _ HS NR). rewrite <- BL in R.
  destruct (C81_frames _ _ _ _ _ _ _ R FR) as (h' & P & ST).
  assert (LV := decoded_lengths _ _ _ _ (cadus_length _ _ _ _ R) (frames_read_or _ _ _ _ _ FR)). rewrite BL in LV.
  destruct (setup_inv _ _ _ _ _ HS) as (i0 & e0 & P1 & P2 & EI & EE & NZ & _).
  rewrite (stands_parse _ _ SI) in P1. injection P1 as <-. rewrite (stands_parse _ _ SE) in P2. injection P2 as <-.
  assert (K1' : kept (chosen (fr_keep_fill a) i e) frames sel).
  { eapply kept_ext; [|exact K1]. intros f If. rewrite Forall_forall in LV. specialize (LV f If). destruct LV as [_ SM]. unfold looked_at, chosen. rewrite EI, EE, wanted_accepted by (cbn in SM; lia). reflexivity. }
  assert (SUB : forall A (P : A -> Prop) l m, kept P l m -> forall x, In x m -> In x l /\ P x).
  { clear. induction 1; intros y I; [destruct I| |]; [destruct I as [<-|I]|]; [split; [left; reflexivity|assumption]| |]; destruct (IHkept y I); split; auto; right; assumption. }
  set (ho := negb (is_none (fr_output a))).
  destruct (C53_report len (fr_keep_fill a) i e ho frames sel K1') as (all & rows & out & E & T & SO & RV & RT & good' & K3 & OU).
  { intros _. apply Forall_forall. intros f If U. rewrite Forall_forall in LV. destruct (LV f) as [[<- _] _]; [|reflexivity]. apply (SUB _ _ _ _ K1' f If). }
  rewrite (kept_unique _ _ _ _ _ K3 K2) in OU. exists all, rows.
  assert (OG : map (fun f => firstn len (f_data f)) good = map f_data good).
  { apply map_ext_in. intros f If. apply firstn_all2. rewrite Forall_forall in LV. destruct (LV f) as [[-> _] _]; [|reflexivity]. apply (SUB _ _ _ _ K1' f). apply (SUB _ _ _ _ K2 f If). }
  rewrite OG in OU. unfold frame_cmd in E. destruct (frame_loop len (fr_keep_fill a) i e ho frames (mkFcmd finfo0 [] [])) as [c|] eqn:FL; cbn [obind] in E; [|discriminate].
  assert (E1 : fc_all c = all) by congruence. assert (E2 : apid_sort (fc_vcids c) = rows) by congruence. assert (E3 : fc_out c = out) by congruence. clear E.
  rewrite <- frame_loop_fold in FL.
  split; [|split; [|auto]].
  - destruct (for_each_pulls _ _ _ _ _ (mono_frames _ _) _ _ _ P _ _ FL) as [n0 EV]. exists n0. intros n L. rewrite (command_shown _ _ _ _ _ _ _ _ _ HS CR). cbv zeta. unfold framing_live. fold ho.
    rewrite (EV n L). cbn [fst snd]. rewrite ST, E1, E2, E3, OU. f_equal. subst ho. destruct (fr_output a); reflexivity.
  - intros -> n. rewrite (command_shown _ _ _ _ _ _ _ _ _ HS CR). cbv zeta. unfold framing_live. fold ho.
    assert (h' = Forever) as -> by (destruct h'; try discriminate; reflexivity).
    rewrite (for_each_hangs _ _ _ _ _ (mono_frames _ _) _ _ P _ _ FL n). reflexivity.
Qed.
Print Assumptions C81_framing.

(* whenever the command is stopped, the output is a beginning of what it would have been; when it is through it stays so *)
Theorem C81_crash_points : forall ovf creatable input a n m p q out out' s s', n <= m ->
  framing_command_live ovf creatable input a n = (p, out, s) -> framing_command_live ovf creatable input a m = (q, out', s') ->
  (p <> Going -> q = p /\ out' = out /\ s' = s) /\
  (s <> None <-> p = Exited Success) /\
  match out, out' with
  | Some x, Some y => exists z, y = x ++ z
  | None, None => True
  | _, _ => False
  end.
Proof.
  intros ovf creatable input a n m p q out out' s s' L. unfold framing_command_live.
  assert (SAME : (Exited Failure, @None (list N), @None (finfo * amap finfo)) = (p, out, s) -> (Exited Failure, @None (list N), @None (finfo * amap finfo)) = (q, out', s') ->
    (p <> Going -> q = p /\ out' = out /\ s' = s) /\ (s <> None <-> p = Exited Success) /\ match out, out' with Some x, Some y => exists z, y = x ++ z | None, None => True | _, _ => False end).
  { intros E1 E2. injection E1 as <- <- <-. injection E2 as <- <- <-. split; [auto|]. split; [|exact I]. split; [congruence|discriminate]. }
  destruct (framing_setup a) as [[[[len pl] i] e]|]; [|exact SAME]. destruct input as [r|]; [|exact SAME]. destruct (negb _); [exact SAME|].
  assert (X := for_each_more _ _ _ _ (fun s f => frame_loop len (fr_keep_fill a) i e (negb (is_none (fr_output a))) [f] s) (mono_frames ovf (pl_derandomize pl)) n m
    (frames_new r (pl_block_length pl)) (mkFcmd finfo0 [] []) L). unfold framing_live.
  destruct (for_each _ _ n _ _) as [c st], (for_each _ _ m _ _) as [c' st']. cbn [fst snd] in X. destruct X as [X1 [l X2]]. rewrite frame_loop_fold in X2.
  apply frame_loop_grows in X2. destruct X2 as [z X2]. intros E1 E2. split; [|split].
  - intro NG. assert (NR : st <> Running) by (intros ->; apply NG; congruence). specialize (X1 NR). injection X1 as -> ->. rewrite E1 in E2. injection E2 as <- <- <-. auto.
  - destruct st; injection E1 as <- <- <-; (split; [intro C; try reflexivity; destruct (C eq_refl)|intro C; discriminate]).
  - assert (out = match fr_output a with Some _ => Some (fc_out c) | None => None end) as -> by (destruct st; congruence).
    assert (out' = match fr_output a with Some _ => Some (fc_out c') | None => None end) as -> by (destruct st'; congruence).
    destruct (fr_output a); [exists z; exact X2|exact I].
Qed.
Print Assumptions C81_crash_points.

(* on a file, this is the command of C59 *)
Theorem C81_on_files : forall ovf k nthreads creatable fs a len p i e bs x fs' sum,
  framing_setup a = Some (len, p, i, e) -> pl_rs p = None -> aget (fr_input a) fs = Some bs ->
  framing_command ovf k nthreads creatable fs a x fs' sum ->
  exists out, eventually (framing_command_live ovf creatable (Some (reader_of bs)) a) (Exited x, out, sum) /\
    match fr_output a, out with
    | Some o, Some c => fs' = aset o c fs
    | _, None => fs' = fs
    | None, Some _ => False
    end.
Proof.
  intros ovf k nt creatable fs a len p i e bs x fs' sum HS NR GI H.
  assert (GO : forall ho frames all rows out, ho = negb (is_none (fr_output a)) -> (forall o, fr_output a = Some o -> creatable o = true) ->
    pipeline_start ovf k nt p (reader_of bs) frames -> frame_cmd len (fr_keep_fill a) i e ho frames = Val (all, rows, out) ->
    eventually (framing_command_live ovf creatable (Some (reader_of bs)) a) (Exited Success, match fr_output a with Some _ => Some out | None => None end, Some (all, rows))).
  { intros ho frames all rows out EH CR PS FC. inversion PS as [items blocks fs0 out0 Y1 EB Y2 HR]; subst out0. rewrite NR in Y2, HR. subst fs0.
    destruct Y2 as [Y2|[C _]]; [|congruence]. destruct (reads_yields _ _ _ _ _ Y1) as [s' R].
    assert (EC : blocks = cadus_of p items) by (rewrite EB; unfold cadus_of, derandomize; rewrite oks_keep; reflexivity). rewrite EC in Y2.
    destruct (C81_frames ovf p _ _ _ _ _ R (fr_yields ovf _ (status_of (EndsIn s')) _ Y2)) as (h' & P & ST).
    unfold frame_cmd in FC. destruct (frame_loop len (fr_keep_fill a) i e ho frames (mkFcmd finfo0 [] [])) as [c|] eqn:FL; cbn [obind] in FC; [|discriminate].
    rewrite <- frame_loop_fold in FL.
    destruct (for_each_pulls _ _ _ _ _ (mono_frames _ _) _ _ _ P _ _ FL) as [n0 EV]. exists n0. intros n L. rewrite (command_shown _ _ _ _ _ _ _ _ _ HS CR). cbv zeta. unfold framing_live. rewrite <- EH.
    rewrite (EV n L). cbn [fst snd]. rewrite ST. replace (if existsb unreadable (cadus_of p items) then Returned else status_of (EndsIn s')) with Returned by (destruct (existsb _ _); reflexivity).
    unfold shown. injection FC as <- <- <-. reflexivity. }
  inversion H as [E|len' p' i' e' bs' frames all rows out E G EO PS FC|len' p' i' e' bs' frames all rows out o E G EO CR NE PS FC|len' p' i' e' bs' o E G EO CR]; subst.
  - congruence.
  - rewrite HS in E. injection E as <- <- <- <-. rewrite GI in G. injection G as <-. exists None. split; [|rewrite EO; reflexivity].
    eapply (GO false) in FC; [|rewrite EO; reflexivity|rewrite EO; discriminate|exact PS]. rewrite EO in FC. exact FC.
  - rewrite HS in E. injection E as <- <- <- <-. rewrite GI in G. injection G as <-. exists (Some out). rewrite EO. split; [|reflexivity].
    eapply (GO true) in FC; [|rewrite EO; reflexivity|rewrite EO; intros ? C; injection C as <-; exact CR|exact PS]. rewrite EO in FC. exact FC.
  - exists None. rewrite EO. split; [|reflexivity]. exists 0. intros n _. unfold framing_command_live. rewrite HS, EO, CR. reflexivity.
Qed.
Print Assumptions C81_on_files.

(* ---- with Reed-Solomon ---- *)
Lemma hands_prefix : forall S A (next : pullable S A), mono next -> forall s l s', hands next s l s' -> forall all h, pulls next s all h ->
  exists rest, all = l ++ rest /\ pulls next s' rest h.
Proof.
  intros S A next M s l s' H. induction H as [s|n s s1 s' a l E H IH]; intros all h P; [exists all; auto|].
  inversion P as [k ? s2 E2|k ? E2|? E2|k ? s2 a2 l2 ? E2 P2]; subst.
  - assert (X := mono_eq _ _ _ M _ _ _ _ _ E E2). discriminate.
  - assert (X := mono_eq _ _ _ M _ _ _ _ _ E E2). discriminate.
  - rewrite E2 in E. discriminate.
  - assert (X := mono_eq _ _ _ M _ _ _ _ _ E E2). injection X as <- <-. destruct (IH _ _ P2) as (rest & -> & P3). exists rest. auto.
Qed.
Lemma ended_by : forall F (job : F -> outcome F) buf nt s ls s', exec job buf nt s ls s' -> ~ In LDrop ls -> st_consumer s <> CDropped ->
  (st_submit s' = SDone \/ st_dispatch s' = DDone \/ st_consumer s' = CEnded) -> 
  In LEnd ls \/ st_submit s = SDone \/ st_dispatch s = DDone \/ st_consumer s = CEnded.
Proof.
  intros F job buf nt s ls s' E. induction E as [s|s l s1 ls s2 ST E IH]; intros ND NC H; [auto|].
  assert (NL : l <> LDrop) by (intros ->; apply ND; left; reflexivity). assert (ND' : ~ In LDrop ls) by (intro C; apply ND; right; exact C).
  assert (NC' : st_consumer s1 <> CDropped) by (destruct ST; cbn in *; congruence).
  destruct (IH ND' NC' H) as [I|C]; [left; right; exact I|]. destruct ST; cbn in *; try (destruct C as [C|[C|C]]; try discriminate C; solve [auto|left; left; reflexivity|right; auto]).
Qed.
Lemma finv_kept : forall len kf inc exc ho seen c, frame_loop len kf inc exc ho seen (mkFcmd finfo0 [] []) = Val c ->
  exists sel good, kept (chosen kf inc exc) seen sel /\ kept usable sel good /\ tallies sel (fc_all c) /\
    (forall v i, aget v (fc_vcids c) = Some i -> tallies (filter (fun f => (v_vcid (f_header f) =? v)%N) sel) i) /\
    (forall v, In v (map fst (fc_vcids c)) <-> exists f, In f sel /\ v_vcid (f_header f) = v) /\
    fc_out c = if ho then concat (map (fun f => firstn len (f_data f)) good) else [].
Proof.
  intros len kf inc exc ho seen c E. destruct (frame_loop_ok len kf inc exc ho seen [] (mkFcmd finfo0 [] []) (finv_init len ho)) as [(_ & s & E2 & I)|(_ & E2)]; [|congruence].
  rewrite E in E2. injection E2 as <-. cbn [app] in I. exists (filter (frame_selected kf inc exc) seen), (filter frame_written (filter (frame_selected kf inc exc) seen)).
  split; [apply kept_filter, selected_chosen|]. split; [apply kept_filter, written_usable|]. split; [apply (fv_all _ _ _ _ I)|]. split; [apply (fv_rows _ _ _ _ I)|]. split; [|apply (fv_out _ _ _ _ I)].
  intro v. rewrite (fv_keys _ _ _ _ I). set (sel := filter (frame_selected kf inc exc) seen). split.
  - intro N. destruct (filter (on_vcid v) sel) as [|f l] eqn:Q; [contradiction|]. exists f.
    assert (X : In f (filter (on_vcid v) sel)) by (rewrite Q; left; reflexivity). apply filter_In in X. destruct X as [X Y]. apply N.eqb_eq in Y. auto.
  - intros (f & If & Ef) N. assert (X : In f (filter (on_vcid v) sel)) by (apply filter_In; split; [exact If|apply N.eqb_eq; exact Ef]). rewrite N in X. destruct X.
Qed.

(* Under every schedule, at any time, the loop has seen the first frames, decoded, in order, and what it has counted and
   written is what belongs to them. It ends only after all of them, and not at all if the input fails for ever. *)
Theorem C81_rs : forall ovf k nthreads len p o keep_fill include exclude has_output r items h frames st0 s c st,
  reads biter_next (synchronize r ASM (pl_block_length p)) items h ->
  frames_read ovf (cadus_of p items) (status_of h) frames st0 ->
  framing_rs_live ovf k nthreads len p o keep_fill include exclude has_output r s c st ->
  exists n seen sel good, n <= length frames /\ Forall2 (fun f f' => rs_job k (rs_of_opts o) f = Val f') (firstn n frames) seen /\
    kept (chosen keep_fill include exclude) seen sel /\ kept usable sel good /\
    tallies sel (fc_all c) /\
    (forall v, In v (map fst (fc_vcids c)) <-> exists f, In f sel /\ v_vcid (f_header f) = v) /\
    (forall v t, aget v (fc_vcids c) = Some t -> tallies (filter (fun f => (v_vcid (f_header f) =? v)%N) sel) t) /\
    fc_out c = (if has_output then concat (map (fun f => firstn len (f_data f)) good) else []) /\
    (st = Returned -> n = length frames /\ st0 <> Running).
Proof.
  intros ovf k nt len p o kf inc exc ho r items h frames st0 s c st R FR H. destruct H as [source taken t ls s c ES HH EX ND EN FL].
  destruct (C81_frames _ _ _ _ _ _ _ R FR) as (h' & P & ST). rewrite <- ES in P.
  assert (M : mono source) by (rewrite ES; apply mono_frames).
  destruct (hands_prefix _ _ _ M _ _ _ HH _ _ P) as (rest & -> & P2).
  assert (RE : reachable (rs_job k (rs_of_opts o)) (ro_buffer_size o) nt taken s) by (exists ls; exact EX).
  destruct (C45_in_order _ _ _ _ _ _ RE) as [L ORD].
  assert (F2 : Forall2 (fun f f' => rs_job k (rs_of_opts o) f = Val f') (firstn (length (st_recv s)) taken) (st_recv s)).
  { clear -L ORD. revert taken L ORD. induction (st_recv s) as [|x l IH]; intros [|f fs] L ORD; cbn [length firstn] in *; try lia; [constructor|constructor|].
    constructor; [destruct (ORD 0 x eq_refl) as (g & G & J); injection G as <-; exact J|]. apply IH; [lia|]. intros i f' E. destruct (ORD (S i) f' E) as (g & G & J). exists g. auto. }
  destruct (finv_kept _ _ _ _ _ _ _ FL) as (sel & good & K1 & K2 & T & RW & KS & OU).
  exists (length (st_recv s)), (st_recv s), sel, good. split; [rewrite app_length; lia|]. split; [rewrite firstn_app; replace (length (st_recv s) - length taken) with 0 by lia; cbn [firstn]; rewrite app_nil_r; exact F2|].
  split; [exact K1|]. split; [exact K2|]. split; [exact T|]. split; [exact KS|]. split; [exact RW|]. split; [exact OU|].
  intro RT. assert (CE : st_consumer s = CEnded) by (destruct (st_aborted s); [discriminate|]; destruct (st_consumer s); congruence).
  assert (LE := Forall2_length _ _ _ _ _ (ended_all _ _ _ _ _ _ RE CE)).
  destruct (ended_by _ _ _ _ _ _ _ EX ND) as [I|[C|[C|C]]]; try discriminate; [auto|].
  destruct (EN I) as (n & x & EX2 & NX). inversion P2 as [m ? s2 E2|m ? E2|? E2|m ? s2 a2 l2 ? E2 P3]; subst rest.
  - rewrite app_nil_r. split; [lia|]. subst h' st0. discriminate.
  - rewrite app_nil_r. split; [lia|]. subst h' st0. discriminate.
  - rewrite E2 in EX2. discriminate.
  - rewrite (mono_eq _ _ _ M _ _ _ _ _ EX2 E2) in NX. destruct (NX _ _ eq_refl).
Qed.
Print Assumptions C81_rs.


Theorem C81_frames_total : forall ovf cadus h, exists frames st, frames_read ovf cadus h frames st.
Proof.
  intros ovf cadus h.
  assert (T : forall cs m, (exists fs, yields (fdec_next ovf) (mkFdec m cs) fs) \/ (exists fs, panics_after (fdec_next ovf) (mkFdec m cs) fs)).
  { induction cs as [|c cs IH]; intro m; [left; exists []; eapply yields_nil; reflexivity|]. assert (L := dstep_list ovf m c cs).
    destruct (dstep ovf m c) as [[[f|] m']|]; cbn [obind] in L.
    - destruct (IH m') as [[fs Y]|[fs Y]]; [left|right]; exists (f :: fs); econstructor; eassumption.
    - left. exists []. eapply yields_nil. exact L.
    - right. exists []. apply panics_nil. exact L. }
  destruct (T cadus []) as [[fs Y]|[fs Y]]; exists fs; eexists; [apply fr_yields|apply fr_panics]; exact Y.
Qed.
Print Assumptions C81_frames_total.

Lemma handed_ok : forall ovf p r frames t, hands (frames_live ovf (pl_derandomize p)) (frames_new r (pl_block_length p)) frames t ->
  Forall (fun f => (length (f_data f) = pl_block_length p /\ f_integrity f = None) /\ (v_vcid (f_header f) < 64)%N) frames.
Proof.
  intros ovf p r frames t H. destruct (C81_every_stream r ASM (pl_block_length p) ltac:(discriminate)) as (items & h & R & _).
  destruct (C81_frames_total ovf (cadus_of p items) (status_of h)) as (all & st & FR).
  assert (LV := decoded_lengths _ _ _ _ (cadus_length _ _ _ _ R) (frames_read_or _ _ _ _ _ FR)).
  destruct (C81_frames _ _ _ _ _ _ _ R FR) as (h' & P & _). destruct (hands_prefix _ _ _ (mono_frames _ _) _ _ _ H _ _ P) as (rest & -> & _).
  apply Forall_app in LV. apply LV.
Qed.
Lemma delivered_long : forall k nt len il vf thr buf det corr frames s, codec_ok k -> 1 <= il ->
  Forall (fun f => length (f_data f) = len + 32 * il /\ f_integrity f = None) frames ->
  reachable (rs_job k (rs_of_opts (mkRsOpts il vf thr buf det corr))) buf nt frames s ->
  Forall (fun f => usable f -> len <= length (f_data f)) (st_recv s).
Proof.
  intros k nt len il vf thr buf det corr frames s HK HI HF R. apply Forall_forall. intros f' I U. apply In_nth_error in I. destruct I as [j Ei].
  destruct (C45_frames _ _ _ _ _ _ _ _ R Ei) as (f & Ef & A & _ & C & D). assert (If := nth_error_In _ _ Ef). rewrite Forall_forall in HF. destruct (HF f If) as [L N].
  change VCID_FILL with 63%N in *. destruct (N.eq_dec (v_vcid (f_header f)) 63) as [E|E].
  - rewrite (C E), L. lia.
  - destruct (D E) as (integ & data & P & I1 & I2).
    assert (OKI : integ = IOk \/ integ = ICorrected).
    { unfold usable in U. rewrite I1 in U. destruct U as [U|[U|U]]; [discriminate|left|right]; congruence. }
    assert (LD := fun a b c => perform_length k _ _ _ _ HK a b c P OKI). specialize (LD HI eq_refl eq_refl). rewrite L in LD.
    change (rs_interleave (rs_of_opts _)) with il in LD.
    assert (D2 : f_data f' = data) by (destruct OKI; subst integ; exact I2). rewrite D2, LD. lia.
Qed.
(* what the pipeline of the command hands to the loop is long enough, so the loop does not panic in any execution *)
Theorem C81_rs_loop : forall ovf k nthreads a len p o i e r frames t ls s, codec_ok k ->
  framing_setup a = Some (len, p, i, e) -> pl_rs p = Some o -> 1 <= ro_interleave o ->
  hands (frames_live ovf (pl_derandomize p)) (frames_new r (pl_block_length p)) frames t ->
  exec (rs_job k (rs_of_opts o)) (ro_buffer_size o) nthreads (init frames) ls s -> ~ In LDrop ls ->
  (In LEnd ls -> exists n x, frames_live ovf (pl_derandomize p) n t = Some x /\ forall f s', x <> Val (Some f, s')) ->
  exists c st, framing_rs_live ovf k nthreads len p o (fr_keep_fill a) i e (negb (is_none (fr_output a))) r s c st.
Proof.
  intros ovf k nt a len p o i e r frames t ls s HK HS HR HI HH EX ND EN.
  assert (HO := handed_ok _ _ _ _ _ HH).
  destruct (setup_inv _ _ _ _ _ HS) as (i0 & e0 & _ & _ & _ & _ & _ & pn & rs & vf & EP & _). rewrite frame_pipeline_is in EP.
  destruct rs as [il|]; [|rewrite EP in HR; discriminate].
  assert (BL : pl_block_length p = len + 32 * il) by (rewrite EP; reflexivity). rewrite BL in HO.
  assert (EO : o = mkRsOpts il vf (match fr_rs_threads a with Some n => n | None => 0 end) (fr_rs_buffersize a) (fr_rs_detect a || fr_rs_correct a) (fr_rs_correct a)) by (rewrite EP in HR; cbn [pl_rs] in HR; congruence).
  assert (LG : Forall (fun f => usable f -> len <= length (f_data f)) (st_recv s)).
  { rewrite EO in EX, HI. cbn [ro_interleave ro_buffer_size] in EX, HI. eapply delivered_long; [exact HK|exact HI| |exists ls; exact EX]. eapply Forall_impl; [|exact HO]. cbn. tauto. }
  destruct (frame_loop_ok len (fr_keep_fill a) i e (negb (is_none (fr_output a))) (st_recv s) [] (mkFcmd finfo0 [] []) (finv_init _ _)) as [(_ & c & E & _)|(B & _)].
  - exists c. eexists. eapply framing_rs_intro; try reflexivity; eassumption.
  - exfalso. apply Exists_exists in B. destruct B as (f & X & Y1 & Y2 & Y3). apply filter_In in X. destruct X as [X _]. rewrite Forall_forall in LG.
    apply written_usable in Y2. specialize (LG f X Y2). lia.
Qed.
Print Assumptions C81_rs_loop.

(* the frames one after the other *)
Lemma one_frame : forall F (job : F -> outcome F) buf nt f f' fs n rc, 1 <= nt -> job f = Val f' ->
  exists ls, exec job buf nt (mkState (f :: fs) SIdle n [] [] [] [] DIdle [] CActive rc false) ls
    (mkState fs SIdle (S n) [] [] [] [] DIdle [] CActive (rc ++ [f']) false) /\ ~ In LDrop ls /\ ~ In LEnd ls.
Proof.
  intros F job buf nt f f' fs n rc NT J.
  assert (A : exec job buf nt (mkState (f :: fs) SIdle n [] [] [] [] DIdle [] CActive rc false) [LTake; LStart n; LFinish n]
    (mkState fs (SSend n) (S n) [] [] [(n, f')] [] DIdle [] CActive rc false)).
  { eapply exec_cons; [apply st_take|]. eapply exec_cons; [exact (st_start job buf nt _ _ _ [] n f [] [] _ _ _ _ _ _ NT)|].
    eapply exec_cons; [exact (st_finish job buf nt _ _ _ _ [] n f f' [] _ _ _ _ _ _ J)|apply exec_nil]. }
  assert (APP : forall s1 l1 s2, exec job buf nt s1 l1 s2 -> forall l2 s3, exec job buf nt s2 l2 s3 -> exec job buf nt s1 (l1 ++ l2) s3).
  { clear. induction 1; intros l2 s3 E; [exact E|]. cbn [app]. eapply exec_cons; [eassumption|]. auto. }
  destruct buf as [|b].
  - exists ([LTake; LStart n; LFinish n] ++ [LSubmit; LResult; LOutput]). split; [|split; cbn; intuition discriminate]. eapply APP; [exact A|].
    eapply exec_cons; [apply st_submit_rdv; reflexivity|]. eapply exec_cons; [exact (st_result job 0 nt _ _ _ _ _ [] n f' [] _ _ _ _)|].
    eapply exec_cons; [apply st_out_rdv; reflexivity|apply exec_nil].
  - exists ([LTake; LStart n; LFinish n] ++ [LSubmit; LJob; LResult; LOutput; LRecv]). split; [|split; cbn; intuition discriminate]. eapply APP; [exact A|].
    eapply exec_cons; [apply st_submit_buf; [unfold jobs_cap; cbn; lia|discriminate]|]. eapply exec_cons; [apply st_job|]. eapply exec_cons; [exact (st_result job _ nt _ _ _ _ _ [] n f' [] _ _ _ _)|].
    eapply exec_cons; [apply st_out_buf; [unfold out_cap; cbn; lia|discriminate]|]. eapply exec_cons; [apply st_recv_some|apply exec_nil].
Qed.
Lemma all_frames : forall F (job : F -> outcome F) buf nt, 1 <= nt -> forall fs fs', Forall2 (fun f f' => job f = Val f') fs fs' -> forall n rc,
  exists ls, exec job buf nt (mkState fs SIdle n [] [] [] [] DIdle [] CActive rc false) ls
    (mkState [] SIdle (n + length fs) [] [] [] [] DIdle [] CActive (rc ++ fs') false) /\ ~ In LDrop ls /\ ~ In LEnd ls.
Proof.
  intros F job buf nt NT fs fs' H. induction H as [|f f' fs fs' J _ IH]; intros n rc.
  - exists []. rewrite app_nil_r, Nat.add_0_r. split; [apply exec_nil|auto].
  - destruct (one_frame F job buf nt f f' fs n rc NT J) as (l1 & E1 & D1 & N1). destruct (IH (S n) (rc ++ [f'])) as (l2 & E2 & D2 & N2). exists (l1 ++ l2).
    rewrite <- app_assoc in E2. cbn [app length] in *. replace (n + S (length fs)) with (S n + length fs) by lia. split.
    + revert E1 E2. generalize (mkState (f :: fs) SIdle n [] [] [] [] DIdle [] CActive rc false). intros s0 E1. clear -E1. induction E1; intro E2; [exact E2|]. cbn [app]. eapply exec_cons; [eassumption|]. auto.
    + split; intro C; apply in_app_or in C; tauto.
Qed.
Lemma pulls_hands : forall S A (next : pullable S A) s l h, pulls next s l h -> exists t, hands next s l t.
Proof. intros S A next s l h P. induction P as [n s s' E|n s E|s E|n s s' a l h E P [t IH]]; try (eexists; apply hands_nil). exists t. eapply hands_item; [exact E|exact IH]. Qed.
(* Without an end of the input nothing that arrived has to wait: the loop can have seen all frames while the input still fails *)
Theorem C81_rs_reaches : forall ovf k nthreads a len p o i e r items h frames st0 seen, codec_ok k -> 1 <= nthreads ->
  framing_setup a = Some (len, p, i, e) -> pl_rs p = Some o -> 1 <= ro_interleave o ->
  reads biter_next (synchronize r ASM (pl_block_length p)) items h ->
  frames_read ovf (cadus_of p items) (status_of h) frames st0 ->
  Forall2 (fun f f' => rs_job k (rs_of_opts o) f = Val f') frames seen ->
  exists s c, framing_rs_live ovf k nthreads len p o (fr_keep_fill a) i e (negb (is_none (fr_output a))) r s c Running /\ st_recv s = seen.
Proof.
  intros ovf k nt a len p o i e r items h frames st0 seen HK NT HS HR HI R FR F2.
  destruct (C81_frames _ _ _ _ _ _ _ R FR) as (h' & P & _). destruct (pulls_hands _ _ _ _ _ _ P) as [t HH].
  destruct (all_frames _ (rs_job k (rs_of_opts o)) (ro_buffer_size o) nt NT _ _ F2 0 []) as (ls & EX & ND & NE).
  destruct (C81_rs_loop ovf k nt a len p o i e r frames t ls _ HK HS HR HI HH EX ND) as (c & st & H); [intro C; destruct (NE C)|].
  assert (st = Running) by (inversion H; subst; reflexivity). subst st. eexists. exists c. split; [exact H|reflexivity].
Qed.
Print Assumptions C81_rs_reaches.
(* and where nothing happens any more unless the input delivers, it has seen all that was taken from the input *)
Theorem C81_rs_nothing_held_back : forall ovf k nthreads len p o keep_fill include exclude has_output r items h frames st0 s c st,
  1 <= nthreads -> (forall f, In f frames -> rs_job k (rs_of_opts o) f <> Panic) ->
  reads biter_next (synchronize r ASM (pl_block_length p)) items h ->
  frames_read ovf (cadus_of p items) (status_of h) frames st0 ->
  framing_rs_live ovf k nthreads len p o keep_fill include exclude has_output r s c st ->
  (forall l s', step (rs_job k (rs_of_opts o)) (ro_buffer_size o) nthreads s l s' -> source_acts l \/ l = LDrop) ->
  map (fun f => Val f) (st_recv s) = map (rs_job k (rs_of_opts o)) (firstn (st_next s) frames).
Proof.
  intros ovf k nt len p o kf inc exc ho r items h frames st0 s c st NT NP R FR H STK. destruct H as [source taken t ls s c ES HH EX ND EN FL].
  destruct (C81_frames _ _ _ _ _ _ _ R FR) as (h' & P & ST). rewrite <- ES in P.
  assert (M : mono source) by (rewrite ES; apply mono_frames).
  destruct (hands_prefix _ _ _ M _ _ _ HH _ _ P) as (rest & -> & P2).
  assert (RE : reachable (rs_job k (rs_of_opts o)) (ro_buffer_size o) nt taken s) by (exists ls; exact EX).
  assert (NC : st_consumer s <> CDropped).
  { clear -EX ND. assert (G : forall s0 l0 s1, exec (rs_job k (rs_of_opts o)) (ro_buffer_size o) nt s0 l0 s1 -> ~ In LDrop l0 -> st_consumer s0 <> CDropped -> st_consumer s1 <> CDropped).
    { induction 1 as [|s0 l s1 l0 s2 X _ IH]; [tauto|]. intros D C. apply IH; [intro Y; apply D; right; exact Y|]. eapply step_keeps; [exact X| |exact C]. intros ->. apply D. left. reflexivity. }
    eapply G; [exact EX|exact ND|discriminate]. }
  destruct (C67_nothing_held_back _ _ _ _ taken s NT ltac:(intros f I; apply NP, in_or_app; left; exact I) RE NC STK) as [L MP]. rewrite MP.
  assert (LN : st_next s <= length taken). { destruct (C45_in_order _ _ _ _ _ _ RE) as [X _]. lia. }
  rewrite firstn_app. replace (st_next s - length taken) with 0 by lia. cbn [firstn]. rewrite app_nil_r. reflexivity.
Qed.
Print Assumptions C81_rs_nothing_held_back.

(* ---- the output named the input ---- *)
(* Without Reed-Solomon: the input is lost, the output is empty, and the command reports success *)
Theorem C81_output_over_input_refuted : forall ovf creatable fs a len p i e bs,
  framing_setup a = Some (len, p, i, e) -> pl_rs p = None -> fr_output a = Some (fr_input a) -> creatable (fr_input a) = true ->
  aget (fr_input a) fs = Some bs ->
  eventually (framing_command_live ovf creatable (input_after_create fs a) a) (Exited Success, Some [], Some (finfo0, [])).
Proof.
  intros ovf creatable fs a len p i e bs HS NR EO CR GI. unfold input_after_create. rewrite EO, aget_aset, N.eqb_refl. cbn [option_map].
  assert (BL := no_rs_length _ _ _ _ _ HS NR).
  assert (R : exists s', reads biter_next (synchronize (reader_of []) ASM (pl_block_length p)) [] (EndsIn s')).
  { eexists. apply reads_end. vm_compute. reflexivity. }
  destruct R as [s' R].
  assert (Y : yields (fdec_next ovf) (frame_decoder (cadus_of p [])) []) by (unfold cadus_of; destruct (pl_derandomize p); eapply yields_nil; reflexivity).
  destruct (C81_frames _ _ _ _ _ _ _ R (fr_yields ovf _ (status_of (EndsIn s')) _ Y)) as (h' & P & ST).
  destruct (for_each_pulls _ _ _ _ (fun s f => frame_loop len (fr_keep_fill a) i e true [f] s) (mono_frames _ _) _ _ _ P (mkFcmd finfo0 [] []) _ eq_refl) as [n0 EV]. exists n0. intros n L.
  rewrite (command_shown _ _ _ _ _ _ _ _ _ HS) by (rewrite EO; intros ? C; injection C as <-; exact CR). cbv zeta. unfold framing_live. rewrite EO. cbn [is_none negb].
  rewrite (EV n L). cbn [fst snd]. rewrite ST. unfold cadus_of. destruct (pl_derandomize p); reflexivity.
Qed.
Print Assumptions C81_output_over_input_refuted.

(* ---- examples ---- *)
(* a connection that delivers a bit of noise, one CADU, a read error, a fill CADU and the first part of another CADU, and
   then fails for ever *)
Definition lx_reader : reader :=
  mkReader [EvData ([1; 2] ++ ASM); EvData (fx_frame 3); EvFail (OtherIo 9); EvData (ASM ++ fx_frame 63 ++ ASM ++ [64; 3])]%N (Failing 5).
Definition lx_b1 : block := mkBlock 0 (mkLoc 7 0) (fx_frame 3).
Definition lx_b2 : block := mkBlock 12 (mkLoc 19 0) (fx_frame 63).
Example C81_ex_reads : exists items, reads biter_next (synchronize lx_reader ASM 8) items Forever /\ keep_ok items = [lx_b1; lx_b2].
Proof.
  eexists. split.
  - eapply reads_item; [vm_compute; reflexivity|]. eapply reads_item; [vm_compute; reflexivity|]. eapply reads_item; [vm_compute; reflexivity|]. eapply reads_item; [vm_compute; reflexivity|].
    apply reads_fail. cofix CH. eapply fails_again; [vm_compute; reflexivity|]. exact CH.
  - vm_compute. reflexivity.
Qed.
(* the framing command on it: it never ends, and the frame is in the output *)
Example C81_ex : eventually (framing_command_live true (fun _ => true) (Some lx_reader) (fx_args None None)) (Going, Some (fx_frame 3), None) /\
  forall n, fst (fst (framing_command_live true (fun _ => true) (Some lx_reader) (fx_args None None) n)) = Going.
Proof.
  destruct C81_ex_reads as (items & R & K).
  assert (HS : exists p, framing_setup (fx_args None None) = Some (8, p, [3%N], []) /\ pl_rs p = None /\ pl_derandomize p = false) by (eexists; split; [vm_compute; reflexivity|split; reflexivity]).
  destruct HS as (p & HS & NR & PN).
  assert (EC : cadus_of p items = [lx_b1; lx_b2]) by (unfold cadus_of; rewrite PN; exact K).
  assert (Y : exists f1 f2, yields (fdec_next true) (frame_decoder [lx_b1; lx_b2]) [f1; f2] /\ v_vcid (f_header f1) = 3%N /\ v_vcid (f_header f2) = 63%N /\ f_integrity f1 = None /\ f_data f1 = fx_frame 3).
  { do 2 eexists. split; [eapply run_yields with (fuel := 10); vm_compute; reflexivity|]. repeat split. }
  destruct Y as (f1 & f2 & Y & V1 & V2 & I1 & D1). rewrite <- EC in Y.
  destruct (C81_framing true (fun _ => true) lx_reader (fx_args None None) 8 p [3%N] [] [3%N] [] items Forever [f1; f2] Running [f1] [f1] HS NR) as (all & rows & EV & GO & _).
  - apply C50_parse_number_ranges. vm_compute. reflexivity.
  - exists []. split; [constructor|reflexivity].
  - reflexivity.
  - exact R.
  - assert (X := fr_yields true _ (status_of (@Forever biter)) _ Y). rewrite EC in X at 2. exact X.
  - apply kept_yes; [split; [intros _; rewrite V1; discriminate|split; [right; left; symmetry; exact V1|intros []]]|].
    apply kept_no; [|constructor]. intros [C _]. apply C; [reflexivity|exact V2].
  - apply kept_yes; [left; exact I1|constructor].
  - cbn [shown status_of map concat fr_output fx_args option_map] in EV. rewrite D1, app_nil_r in EV.
    split; [exact EV|apply GO; reflexivity].
Qed.
(* the hypotheses of C81_failing_device *)
Example C81_ex_device : let r := mkReader [EvData ([1; 2] ++ ASM ++ fx_frame 3 ++ ASM ++ [64; 3])]%N (Failing 5) in
  vtranscript (evs r) = map TByte ([1; 2] ++ ASM ++ fx_frame 3 ++ ASM ++ [64; 3])%N /\ bytes_ok ([1; 2] ++ ASM ++ fx_frame 3 ++ ASM ++ [64; 3])%N.
Proof. split; [vm_compute; reflexivity|]. repeat (constructor; [vm_compute; reflexivity|]). constructor. Qed.
(* with Reed-Solomon, on a connection that delivers one CADU and then fails for ever: the frame is decoded and written *)
Definition lx_rs_reader : reader := mkReader [EvData (ASM ++ rx_frame 5 ++ repeat 77 32)]%N (Failing 5).
Example C81_ex_rs : exists p o s c, framing_setup rx_args = Some (8, p, [], []) /\ pl_rs p = Some o /\
  framing_rs_live true ok_codec 2 8 p o false [] [] true lx_rs_reader s c Running /\ fc_out c = rx_frame 5.
Proof.
  assert (EXP : exists p, framing_setup rx_args = Some (8, p, [], []) /\ p = rx_p) by (eexists; split; vm_compute; reflexivity).
  destruct EXP as (p & EP & ->). exists rx_p, (mkRsOpts 1 215 1 3 true true).
  assert (R : exists b, reads biter_next (synchronize lx_rs_reader ASM (pl_block_length rx_p)) [Ok b] Forever /\ bl_data b = rx_frame 5 ++ repeat 77%N 32).
  { eexists. split.
    - eapply reads_item; [vm_compute; reflexivity|]. apply reads_fail. eapply fails_again; [vm_compute; reflexivity|]. cofix CH. eapply fails_again; [vm_compute; reflexivity|]. exact CH.
    - vm_compute. reflexivity. }
  destruct R as (b & R & D). destruct b as [bl bc bd]. cbn [bl_data] in D. subst bd.
  assert (Y : exists f, yields (fdec_next true) (frame_decoder [mkBlock bl bc (rx_frame 5 ++ repeat 77%N 32)]) [f] /\ f = mkFrame (mkVcdu 1 0 3 5) 0 None (rx_frame 5 ++ repeat 77%N 32)).
  { eexists. split; [eapply run_yields with (fuel := 10); vm_compute; reflexivity|]. vm_compute. reflexivity. }
  destruct Y as (f & Y & ->).
  assert (J : rs_job ok_codec (rs_of_opts (mkRsOpts 1 215 1 3 true true)) (mkFrame (mkVcdu 1 0 3 5) 0 None (rx_frame 5 ++ repeat 77%N 32)) =
    Val (mkFrame (mkVcdu 1 0 3 5) 0 (Some IOk) (rx_frame 5))) by (vm_compute; reflexivity).
  destruct (C81_rs_reaches true ok_codec 2 rx_args 8 rx_p (mkRsOpts 1 215 1 3 true true) [] [] lx_rs_reader [Ok (mkBlock bl bc (rx_frame 5 ++ repeat 77%N 32))] Forever
    [mkFrame (mkVcdu 1 0 3 5) 0 None (rx_frame 5 ++ repeat 77%N 32)] Running [mkFrame (mkVcdu 1 0 3 5) 0 (Some IOk) (rx_frame 5)]) as (s & c & H & RC); try exact R; try exact EP; try reflexivity.
  - intros w L _. exists w. split; [reflexivity|lia].
  - lia.
  - exact (fr_yields true _ (status_of (@Forever biter)) _ Y).
  - constructor; [exact J|constructor].
  - exists s, c. split; [exact EP|]. split; [reflexivity|]. split; [exact H|]. inversion H as [? ? ? ? ? ? ? ? ? ? ? FL]; subst. rewrite RC in FL. vm_compute in FL. injection FL as <-. reflexivity.
Qed.
