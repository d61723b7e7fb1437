(* C91: the framing command reads from standard input, a file or a connection. *)
From Coq Require Import Sorted.
From Verif Require Import Base S_Framing S_Bits S_Packet S_Sync S_Frame S_FrameLive M_Reader M_Packet M_Bytes M_Sync M_Pn M_Frame M_ReedSolomon M_RsPipeline M_Live S_Live S_Pause M_Pipeline M_Pause
  M_Merge M_Cli S_Cli M_Main S_Main M_FrameLive L_Base L_SyncSafe P_CliFilter P_Main P_Main2 P_FrameLive M_Config S_Config P_Config M_Input S_Input.
Open Scope nat_scope.

(* ---- simulation: the same bytes ---- *)
Definition sim {S A} (R : S -> S -> Prop) (next : pullable S A) : Prop := forall n s s', R s s' ->
  match next n s, next n s' with
  | None, None => True
  | Some Panic, Some Panic => True
  | Some (Val (o, t)), Some (Val (o', t')) => o = o' /\ R t t'
  | _, _ => False
  end.
Lemma sim_ok_only : forall S A (R : S -> S -> Prop) (next : pullable S (result A)), sim R next -> sim R (ok_only next).
Proof.
  intros S A R next H. intro n. unfold ok_only. induction n as [|n IH]; intros s s' HR; cbn [filter_mapped]; [exact I|].
  specialize (H n s s' HR). destruct (next n s) as [[[o t]|]|], (next n s') as [[[o' t']|]|]; try contradiction; try exact I.
  destruct H as [<- HT]. destruct o as [[x|e]|]; cbn [result_ok]; auto. apply IH, HT.
Qed.
Lemma sim_mapped : forall S A B (R : S -> S -> Prop) (f : A -> B) (next : pullable S A), sim R next -> sim R (mapped f next).
Proof.
  intros S A B R f next H n s s' HR. unfold mapped. specialize (H n s s' HR).
  destruct (next n s) as [[[o t]|]|], (next n s') as [[[o' t']|]|]; try contradiction; try exact I. destruct H as [<- HT]. auto.
Qed.
Definition same_dec {S} (R : S -> S -> Prop) (x y : decoding S) : Prop := dc_counters x = dc_counters y /\ R (dc_src x) (dc_src y).
Lemma sim_decoding : forall S (R : S -> S -> Prop) ovf (next : pullable S block), sim R next -> sim (same_dec R) (decoding_next ovf next).
Proof.
  intros S R ovf next H n s s' [HC HR]. unfold decoding_next. specialize (H n _ _ HR). rewrite <- HC.
  destruct (next n (dc_src s)) as [[[o t]|]|], (next n (dc_src s')) as [[[o' t']|]|]; try contradiction; try exact I. destruct H as [<- HT].
  destruct o as [cadu|]; cbn [obind].
  - destruct (fdec_next ovf (mkFdec (dc_counters s) [cadu])) as [[f d]|]; cbn [obind]; [|exact I]. split; [reflexivity|]. split; [reflexivity|exact HT].
  - split; [reflexivity|]. split; [reflexivity|exact HT].
Qed.
Lemma sim_blocks : sim same_bi (direct biter_next).
Proof.
  intros n s s' H. unfold direct. assert (R := same_bi_next _ _ H).
  destruct (biter_next s) as [[o t]|], (biter_next s') as [[o' t']|]; cbn in R; try contradiction; try exact I. exact R.
Qed.
Lemma sim_frames : forall ovf d, sim (same_dec same_bi) (frames_live ovf d).
Proof.
  intros ovf d. apply sim_decoding. unfold blocks_live. destruct d; [apply sim_mapped|]; apply sim_ok_only, sim_blocks.
Qed.
Lemma sim_for_each : forall S A B (R : S -> S -> Prop) (next : pullable S A) (body : B -> A -> outcome B), sim R next ->
  forall n s s' b, R s s' -> for_each next body n s b = for_each next body n s' b.
Proof.
  intros S A B R next body H n. induction n as [|n IH]; intros s s' b HR; cbn [for_each]; [reflexivity|]. specialize (H n s s' HR).
  destruct (next n s) as [[[o t]|]|], (next n s') as [[[o' t']|]|]; try contradiction; try reflexivity. destruct H as [<- HT].
  destruct o as [x|]; [|reflexivity]. destruct (body b x); [|reflexivity]. apply IH, HT.
Qed.
Lemma sim_hands : forall S A (R : S -> S -> Prop) (next : pullable S A), sim R next ->
  forall s l h, hands next s l h -> forall s', R s s' -> exists h', hands next s' l h' /\ R h h'.
Proof.
  intros S A R next H s l h HH. induction HH as [s|n s s1 h a l E _ IH]; intros s' HR.
  - exists s'. split; [constructor|exact HR].
  - specialize (H n s s' HR). rewrite E in H. destruct (next n s') as [[[o' t']|]|] eqn:E'; try contradiction. destruct H as [<- HT].
    destruct (IH _ HT) as (h' & HH' & HR'). exists h'. split; [|exact HR']. econstructor; eassumption.
Qed.
Lemma same_frames_new : forall r r' len, same_reader r r' -> same_dec same_bi (frames_new r len) (frames_new r' len).
Proof. intros r r' len H. split; [reflexivity|]. apply same_start, H. Qed.

(* Into how many reads the bytes, the errors and the ends are divided does not matter, at no moment. *)
Theorem C91_reads : forall ovf creatable r r' a, vtranscript (evs r) = vtranscript (evs r') -> fin r = fin r' ->
  forall n, framing_command_live ovf creatable (Some r) a n = framing_command_live ovf creatable (Some r') a n.
Proof.
  intros ovf creatable r r' a V F n. unfold framing_command_live. destruct (framing_setup a) as [[[[len p] i] e]|]; [|reflexivity].
  destruct (negb _); [reflexivity|]. unfold framing_live.
  rewrite (sim_for_each _ _ _ _ _ _ (sim_frames ovf (pl_derandomize p)) n _ (frames_new r' (pl_block_length p))); [reflexivity|].
  apply same_frames_new. split; assumption.
Qed.
Print Assumptions C91_reads.
Theorem C91_reads_rs : forall ovf k nthreads len p o keep_fill include exclude has_output r r' s c st,
  vtranscript (evs r) = vtranscript (evs r') -> fin r = fin r' ->
  (framing_rs_live ovf k nthreads len p o keep_fill include exclude has_output r s c st <->
   framing_rs_live ovf k nthreads len p o keep_fill include exclude has_output r' s c st).
Proof.
  assert (H : forall ovf k nthreads len p o keep_fill include exclude has_output r r' s c st, same_reader r r' ->
    framing_rs_live ovf k nthreads len p o keep_fill include exclude has_output r s c st ->
    framing_rs_live ovf k nthreads len p o keep_fill include exclude has_output r' s c st).
  { intros ovf k nt len p o kf i e ho r r' s c st SR [source frames h ls s0 c0 -> HH HE ND HL HF].
    assert (SM := sim_frames ovf (pl_derandomize p)).
    destruct (sim_hands _ _ _ _ SM _ _ _ HH _ (same_frames_new _ _ (pl_block_length p) SR)) as (h' & HH' & HR).
    eapply framing_rs_intro with (h := h'); [reflexivity|exact HH'|exact HE|exact ND| |exact HF].
    intro L. destruct (HL L) as (n & x & EX & NX). specialize (SM n _ _ HR). rewrite EX in SM.
    destruct (frames_live ovf (pl_derandomize p) n h') as [x'|] eqn:EX'; [|destruct x as [[? ?]|]; contradiction].
    exists n, x'. split; [exact EX'|]. intros f s' ->. destruct x as [[o0 t]|]; [|contradiction]. destruct SM as [-> _]. exact (NX _ _ eq_refl). }
  intros ovf k nt len p o kf i e ho r r' s c st V F. split; apply H; split; congruence.
Qed.
Print Assumptions C91_reads_rs.

Lemma source_is : forall dash w name r, source dash w name r <-> open_input dash w name = Some r.
Proof.
  intros dash w name r. unfold open_input. split.
  - intros [|n0 r0 D X O|n0 r0 D X O]; [rewrite N.eqb_refl; reflexivity| |]; apply N.eqb_neq in D; rewrite D, X; exact O.
  - destruct (N.eqb_spec name dash) as [->|D]; [intro E; injection E as <-; constructor|].
    destruct (w_exists w name) eqn:X; intro O; [apply from_file|apply from_network]; assumption.
Qed.
(* The same bytes on standard input, in a file and over a connection: the command does the same, at every moment. *)
Theorem C91_any_source : forall parse ovf creatable dash w w' cfgs path a input r r' bs,
  source dash w (fr_input a) r -> source dash w' input r' -> delivers r bs -> delivers r' bs ->
  forall n, framing_any parse ovf creatable dash w cfgs path a n = framing_any parse ovf creatable dash w' cfgs path (renamed a input) n.
Proof.
  intros parse ovf creatable dash w w' cfgs path a input r r' bs HS HS' [V F] [V' F'] n. apply source_is in HS, HS'.
  unfold framing_any. cbn [renamed fr_include fr_exclude fr_input]. rewrite HS, HS'.
  assert (X : forall c, framing_command_live ovf creatable (Some r) (with_config a c) n =
                        framing_command_live ovf creatable (Some r') (with_config (renamed a input) c) n).
  { intro c. rewrite (C91_reads ovf creatable r r') by congruence. reflexivity. }
  rewrite X. destruct (parse_number_ranges (fr_include a)); [|reflexivity]. destruct (parse_number_ranges (fr_exclude a)); [|reflexivity].
  destruct path; [|reflexivity]. destruct (config_read _ _ _); [apply X|reflexivity].
Qed.
Print Assumptions C91_any_source.
(* With a source, and a config that says something, the command is the one of C81 on that reader. *)
Theorem C91_runs : forall parse ovf creatable dash w cfgs path a r cfg, source dash w (fr_input a) r ->
  match path with
  | None => cfg = None
  | Some p => exists bs v c, aget p cfgs = Some bs /\ parse bs = Some v /\ config_is v c /\ cfg = Some (used c)
  end ->
  forall n, framing_any parse ovf creatable dash w cfgs path a n = framing_command_live ovf creatable (Some r) (with_config a cfg) n.
Proof.
  intros parse ovf creatable dash w cfgs path a r cfg HS HC n. apply source_is in HS. unfold framing_any. rewrite HS.
  assert (X : match parse_number_ranges (fr_include a), parse_number_ranges (fr_exclude a) with
    | Some _, Some _ => framing_command_live ovf creatable (Some r) (with_config a cfg) n
    | _, _ => (Exited Failure, None, None) end = framing_command_live ovf creatable (Some r) (with_config a cfg) n).
  { unfold framing_command_live, framing_setup. cbn [with_config fr_include fr_exclude].
    destruct (parse_number_ranges (fr_include a)); [|reflexivity]. destruct (parse_number_ranges (fr_exclude a)); reflexivity. }
  rewrite <- X. destruct (parse_number_ranges (fr_include a)); [|reflexivity]. destruct (parse_number_ranges (fr_exclude a)); [|reflexivity].
  destruct path as [p|]; [|subst; reflexivity]. destruct HC as (bs & v & c & B & V & C & ->).
  unfold config_read. rewrite B, V. apply C90_config in C. rewrite C. reflexivity.
Qed.
Print Assumptions C91_runs.

(* When the command reports failure, and that it has touched no file then. *)
Theorem C91_fails : forall parse ovf creatable dash w cfgs path a n,
  (fst (fst (framing_any parse ovf creatable dash w cfgs path a n)) = Exited Failure <->
     (~ exists vs, stands_for (fr_include a) vs) \/ (~ exists vs, stands_for (fr_exclude a) vs) \/
     (~ exists r, source dash w (fr_input a) r) \/
     match path with
     | None => fr_length a = 0
     | Some p => ~ exists bs v c, aget p cfgs = Some bs /\ parse bs = Some v /\ config_is v c /\ fc_length c <> 0%N
     end \/
     (exists o, fr_output a = Some o /\ creatable o = false)) /\
  (fst (fst (framing_any parse ovf creatable dash w cfgs path a n)) = Exited Failure ->
   framing_any parse ovf creatable dash w cfgs path a n = (Exited Failure, None, None)).
Proof.
  intros parse ovf creatable dash w cfgs path a n.
  assert (LIVE : forall r cfg, 
    (fst (fst (framing_command_live ovf creatable (Some r) (with_config a cfg) n)) = Exited Failure <->
     framing_setup (with_config a cfg) = None \/ exists o, fr_output a = Some o /\ creatable o = false) /\
    (fst (fst (framing_command_live ovf creatable (Some r) (with_config a cfg) n)) = Exited Failure ->
     framing_command_live ovf creatable (Some r) (with_config a cfg) n = (Exited Failure, None, None))).
  { intros r cfg. unfold framing_command_live. destruct (framing_setup (with_config a cfg)) as [[[[len p] i] e]|]; [|split; [split; [left; reflexivity|reflexivity]|reflexivity]].
    cbn [with_config fr_output]. destruct (fr_output a) as [o|].
    - destruct (creatable o) eqn:C; cbn [negb].
      + destruct (framing_live _ _ _ _ _ _ _ _ _) as [c st]. destruct st; cbn [fst]; (split; [split; [discriminate|]|discriminate]);
          (intros [E|(o' & E & E')]; [discriminate|injection E as <-; congruence]).
      + split; [|reflexivity]. split; [|reflexivity]. intros _. right. exists o. auto.
    - cbn [negb]. destruct (framing_live _ _ _ _ _ _ _ _ _) as [c st]. destruct st; cbn [fst]; (split; [split; [discriminate|]|discriminate]);
          (intros [E|(o' & E & E')]; discriminate). }
  assert (SETUP : forall cfg, framing_setup (with_config a cfg) = None <->
     (~ exists vs, stands_for (fr_include a) vs) \/ (~ exists vs, stands_for (fr_exclude a) vs) \/
     match cfg with Some c => cfg_length c = 0%nat | None => fr_length a = 0%nat end).
  { intro cfg. exact (proj1 (C59_rejected true (mkCodec (fun _ => false) (fun w => (RsOk, Some w))) 0 creatable [] (with_config a cfg))). }
  assert (RANGES : (parse_number_ranges (fr_include a) = None <-> ~ exists vs, stands_for (fr_include a) vs) /\
                   (parse_number_ranges (fr_exclude a) = None <-> ~ exists vs, stands_for (fr_exclude a) vs)).
  { assert (P : forall l, parse_number_ranges l = None <-> ~ exists vs, stands_for l vs).
    { intro l. unfold stands_for. split.
      - intros E [vs H]. apply C50_parse_number_ranges in H. congruence.
      - intro H. destruct (parse_number_ranges l) as [vs|] eqn:E; [|reflexivity]. destruct H. exists vs. apply C50_parse_number_ranges, E. }
    split; apply P. }
  destruct RANGES as [RI RE].
  unfold framing_any. destruct (parse_number_ranges (fr_include a)) as [i|] eqn:EI.
  2:{ split; [|reflexivity]. split; [|reflexivity]. intros _. left. apply RI. reflexivity. }
  destruct (parse_number_ranges (fr_exclude a)) as [e|] eqn:EE.
  2:{ split; [|reflexivity]. split; [|reflexivity]. intros _. right. left. apply RE. reflexivity. }
  destruct (open_input dash w (fr_input a)) as [r|] eqn:EO.
  2:{ split; [|reflexivity]. split; [|reflexivity]. intros _. right. right. left. intros [r HS]. apply source_is in HS. congruence. }
  assert (GI : exists vs, stands_for (fr_include a) vs).
  { exists i. unfold stands_for. apply C50_parse_number_ranges, EI. }
  assert (GE : exists vs, stands_for (fr_exclude a) vs).
  { exists e. unfold stands_for. apply C50_parse_number_ranges, EE. }
  assert (GO : exists r, source dash w (fr_input a) r) by (exists r; apply source_is, EO).
  destruct path as [p|].
  - unfold config_read. destruct (aget p cfgs) as [bs|] eqn:B.
    2:{ split; [|reflexivity]. split; [|reflexivity]. intros _. right. right. right. left. intros (bs & v & c & E & _). discriminate. }
    destruct (parse bs) as [v|] eqn:V.
    2:{ split; [|reflexivity]. split; [|reflexivity]. intros _. right. right. right. left. intros (bs' & v & c & E & E' & _). congruence. }
    destruct (de_config v) as [c|] eqn:C.
    2:{ split; [|reflexivity]. split; [|reflexivity]. intros _. right. right. right. left. intros (bs' & v' & c & E & E' & C' & _).
        apply C90_config in C'. congruence. }
    destruct (LIVE r (Some (used c))) as [L1 L2]. split; [|exact L2]. rewrite L1, SETUP. cbn [used cfg_length].
    assert (Z : N.to_nat (fc_length c) = 0 <-> ~ exists bs0 v0 c0, Some bs = Some bs0 /\ parse bs0 = Some v0 /\ config_is v0 c0 /\ fc_length c0 <> 0%N).
    { split.
      - intros Z (bs' & v' & c' & E & E' & C' & NZ). injection E as <-. rewrite V in E'. injection E' as <-. apply C90_config in C'.
        rewrite C in C'. injection C' as <-. lia.
      - intro H. destruct (N.eq_dec (fc_length c) 0) as [->|NZ]; [reflexivity|]. destruct H. exists bs, v, c. split; [reflexivity|]. split; [exact V|].
        split; [apply C90_config, C|exact NZ]. }
    rewrite Z. tauto.
  - destruct (LIVE r None) as [L1 L2]. split; [|exact L2]. rewrite L1, SETUP. tauto.
Qed.
Print Assumptions C91_fails.

(* An input that can be opened and not read, such as a directory, is not refused: the command creates the output and runs for
   ever. *)
Theorem C91_directory_refuted : forall parse ovf creatable dash w cfgs a code len p i e,
  fr_input a <> dash -> w_exists w (fr_input a) = true -> w_open w (fr_input a) = Some (mkReader [] (Failing code)) ->
  framing_setup (with_config a None) = Some (len, p, i, e) -> pl_rs p = None -> (forall o, fr_output a = Some o -> creatable o = true) ->
  forall n, framing_any parse ovf creatable dash w cfgs None a n = (Going, option_map (fun _ => []) (fr_output a), None).
Proof.
  intros parse ovf creatable dash w cfgs a code len p i e D X O HS NR HC n.
  rewrite (C91_runs _ _ _ _ _ _ _ _ (mkReader [] (Failing code)) None); [|apply from_file; assumption|reflexivity].
  set (r := mkReader [] (Failing code)).
  assert (RL : pl_block_length p = len) by (apply (no_rs_length _ _ _ _ _ HS NR)).
  destruct (C81_failing_device ASM len r [] code) as (blocks & W & RD); [repeat constructor; reflexivity|discriminate|constructor|reflexivity|reflexivity|].
  assert (blocks = []) as ->.
  { assert (Z : forall B pos last bl, whole_blocks ASM len B pos last bl -> length B = 0 -> bl = []).
    { intros B pos last bl WB. destruct WB; [reflexivity|reflexivity|]. intro LB. exfalso. rewrite LB in *. cbn [ASM length] in *. lia. }
    apply (Z _ _ _ _ W). reflexivity. }
  destruct (setup_inv _ _ _ _ _ HS) as (i0 & e0 & HI & HE & _).
  assert (FR : frames_read ovf (cadus_of p (map Ok [])) (status_of (@Forever biter)) [] Running).
  { assert (E : cadus_of p (map Ok []) = []) by (unfold cadus_of; destruct (pl_derandomize p); reflexivity). rewrite E.
    apply (fr_yields ovf [] Running []). eapply yields_nil. reflexivity. }
  destruct (C81_framing ovf creatable r (with_config a None) len p i e i0 e0 (map Ok []) Forever [] Running [] []) as (all & rows & [n0 EV] & GO & _);
    try assumption; try constructor.
  { unfold stands_for. apply C50_parse_number_ranges, HI. }
  { unfold stands_for. apply C50_parse_number_ranges, HE. }
  specialize (GO eq_refl n). specialize (EV (Nat.max n0 n) ltac:(lia)). cbn [shown with_config fr_output] in EV.
  destruct (framing_command_live ovf creatable (Some r) (with_config a None) n) as [[q out] sm] eqn:EN. cbn [fst] in GO. subst q.
  destruct (C81_crash_points _ _ _ _ n (Nat.max n0 n) _ _ _ _ _ _ ltac:(lia) EN EV) as (_ & SM & OUT).
  assert (sm = None) as -> by (destruct sm; [|reflexivity]; exfalso; assert (Some p0 <> None) as C by discriminate; apply SM in C; discriminate).
  f_equal. f_equal. destruct (fr_output a); cbn [option_map] in *; destruct out as [x|]; try contradiction; [|reflexivity].
  destruct OUT as [z E]. cbn [concat map] in E. symmetry in E. apply app_eq_nil in E. destruct E as [-> _]. reflexivity.
Qed.
Print Assumptions C91_directory_refuted.

(* the CADUs of C59's example on standard input, in two pieces, although there is also a file of that name *)
Definition ix_world : world :=
  mkWorld (mkReader [EvData (ASM ++ [64]%N); EvData (skipn 1 (fx_frame 3) ++ ASM ++ fx_frame 63)] AtEof)
    (fun _ => true) (fun _ => Some (reader_of [])) (fun _ => None).
Definition ix_args (input : N) : framing_args := mkFramingArgs None 8 false false None false false 0 None 50 [[51%N]] [] (Some 2%N) input.
Example C91_ex : source 7 ix_world 7 (w_stdin ix_world) /\ delivers (w_stdin ix_world) (ASM ++ fx_frame 3 ++ ASM ++ fx_frame 63) /\
  framing_any (fun _ => None) true (fun _ => true) 7 ix_world [] None (ix_args 7) 20 =
    framing_command_live true (fun _ => true) (Some (reader_of (ASM ++ fx_frame 3 ++ ASM ++ fx_frame 63))) (ix_args 7) 20 /\
  exists sum, framing_any (fun _ => None) true (fun _ => true) 7 ix_world [] None (ix_args 7) 20 = (Exited Success, Some (fx_frame 3), Some sum).
Proof. split; [constructor|]. split; [split; reflexivity|]. split; [vm_compute; reflexivity|]. eexists. vm_compute. reflexivity. Qed.
Example C91_ex_fails :
  framing_any (fun _ => None) true (fun _ => true) 7 (mkWorld (reader_of []) (fun _ => false) (fun _ => None) (fun _ => None)) [] None (ix_args 1) 20 =
    (Exited Failure, None, None) /\
  exists len p i e, framing_setup (with_config (ix_args 1) None) = Some (len, p, i, e) /\ pl_rs p = None.
Proof. split; [vm_compute; reflexivity|]. do 4 eexists. split; vm_compute; reflexivity. Qed.
