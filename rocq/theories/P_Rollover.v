(* Property C68: the frame counter roll-over in builds with overflow checks, without and with Reed-Solomon *)
From Verif Require Import Base S_Framing S_Bits S_Frame M_Reader M_Bytes M_Sync M_Pn M_Frame M_ReedSolomon M_RsPipeline M_Pipeline M_Cli M_Main S_Main
  L_Base L_Frame L_RsPipeline L_Pipeline P_Frame P_RsPipeline P_Pipeline.
Open Scope N_scope.

(* frame_decoder either ends regularly or panics, and it panics exactly at a CADU, after frames for all CADUs before
   it, whose channel (not fill) was last seen with the counter 0xffffff and that does not repeat it *)
Theorem C68_panics_exactly : forall ovf cadus frames, Forall (fun c => bytes_ok (bl_data c)) cadus ->
  (panics_after (fdec_next ovf) (frame_decoder cadus) frames <->
   ovf = true /\ yields (fdec_next ovf) (frame_decoder (firstn (length frames) cadus)) frames /\
   exists c h, nth_error cadus (length frames) = Some c /\ vcdu_decode (bl_data c) = Val (Some h) /\
     v_vcid h <> 63 /\ previous_counter (v_vcid h) frames = Some 0xffffff /\ v_counter h <> 0xffffff).
Proof.
  intros ovf cadus frames HB. unfold frame_decoder.
  assert (C0 : counters_are [] []) by (intro v; reflexivity). assert (B0 : bounded []) by (intros v l E; discriminate).
  rewrite (panics_iff ovf cadus [] [] frames C0 B0 HB).
  unfold rollover. cbn [app]. split.
  - intros (Y & c & E & O & h & A & B & C & D). split; [exact O|]. split; [exact Y|]. exists c, h. rewrite previous_last. auto.
  - intros (O & Y & c & h & E & A & B & C & D). split; [exact Y|]. exists c. split; [exact E|]. split; [exact O|]. exists h. rewrite previous_last in C. auto.
Qed.
Print Assumptions C68_panics_exactly.
Theorem C68_ends_or_panics : forall ovf cadus,
  (exists frames, yields (fdec_next ovf) (frame_decoder cadus) frames) \/
  (exists frames, panics_after (fdec_next ovf) (frame_decoder cadus) frames).
Proof. intros. apply yields_or_panics. Qed.
Print Assumptions C68_ends_or_panics.

(* Without Reed-Solomon the caller sees the panic: there is no run that ends *)
Theorem C68_caller_sees_panic : forall ovf k nthreads p r items frames,
  pl_rs p = None ->
  yields biter_next (synchronize r [26; 207; 252; 29] (pl_block_length p)) items ->
  panics_after (fdec_next ovf) (frame_decoder (pulled p items)) frames ->
  forall out, ~ pipeline_start ovf k nthreads p r out.
Proof.
  intros ovf k nt p r items frames RS Y P out H. inversion H as [items' blocks fs out' Y1 EB Y2 HR]; subst out'.
  assert (items' = items) by (eapply yields_det; [exact Y1|exact Y]). subst items'. fold (pulled p items) in EB. subst blocks.
  destruct Y2 as [Y2|[X _]]; [|congruence]. exact (yields_not_panics _ _ _ _ _ _ Y2 P).
Qed.
Print Assumptions C68_caller_sees_panic.
(* With Reed-Solomon nobody does: there is a run to the end, and every such run delivers the processed frames before
   the panic as if the input had ended there, one for one *)
Theorem C68_rs_truncates_refuted : forall ovf k nthreads p o r items frames,
  pl_rs p = Some o -> (1 <= nthreads)%nat ->
  yields biter_next (synchronize r [26; 207; 252; 29] (pl_block_length p)) items ->
  panics_after (fdec_next ovf) (frame_decoder (pulled p items)) frames ->
  (forall f, In f frames -> rs_job k (rs_of_opts o) f <> Panic) ->
  (exists out, pipeline_start ovf k nthreads p r out) /\
  forall out, pipeline_start ovf k nthreads p r out ->
    length out = length frames /\ (length out < length (pulled p items))%nat /\
    Forall2 (fun f f' => rs_job k (rs_of_opts o) f = Val f') frames out.
Proof.
  intros ovf k nt p o r items frames RS HN Y P HJ. split.
  - destruct (C46_can_finish _ (rs_job k (rs_of_opts o)) (ro_buffer_size o) nt frames (init frames)) as (ls & s' & E1 & _ & E2 & _); try assumption.
    + exists []. constructor.
    + discriminate.
    + exists (st_recv s'). eapply start_intro; [exact Y|reflexivity| |].
      * right. split; [congruence|exact P].
      * rewrite RS. exists s'. split; [exists ls; exact E1|auto].
  - intros out H. inversion H as [items' blocks fs out' Y1 EB Y2 HR]; subst out'.
    assert (items' = items) by (eapply yields_det; [exact Y1|exact Y]). subst items'. fold (pulled p items) in EB. subst blocks.
    assert (fs = frames).
    { destruct Y2 as [Y2|[_ Y2]]; [destruct (yields_not_panics _ _ _ _ _ _ Y2 P)|]. clear -P Y2. revert fs Y2. induction P as [s E|s s' a l E _ IH]; intros fs Y2; inversion Y2 as [? E'|? s2 ? ? E' P']; subst; try congruence.
      rewrite E in E'. injection E' as <- <-. f_equal. apply IH. exact P'. }
    subst fs. rewrite RS in HR. destruct HR as (s & R & CE & <-). assert (X := ended_all _ _ _ _ _ _ R CE).
    assert (L := Forall2_length _ _ _ _ _ X). split; [symmetry; exact L|]. split; [|exact X]. rewrite <- L.
    clear -P. unfold frame_decoder in P. revert P. generalize (@nil (N * N)) as m. generalize (pulled p items) as cs. clear. intros cs m P. revert cs m P.
    induction frames as [|f fs IH]; intros cs m P; destruct cs as [|c cs]; cbn [length]; try lia; inversion P as [? E|? s' ? ? E P']; subst; try discriminate.
    unfold fdec_next in E. cbn [fd_cadus fd_counters] in E. destruct (vcdu_decode (bl_data c)) as [[h|]|]; cbn [obind] in E; try discriminate.
    destruct (if negb (v_vcid h =? VCID_FILL) then _ else _); cbn [obind] in E; [|discriminate]. injection E as _ <-. specialize (IH _ _ P'). lia.
Qed.
Print Assumptions C68_rs_truncates_refuted.

(* three CADUs of channel 3 with the counters 0xffffff, 0, 1 *)
Definition rx_frame (c : N) : list N := [64; 3; N.land (N.shiftr c 16) 255; N.land (N.shiftr c 8) 255; N.land c 255; 0; 7; 8].
Definition rx_stream : list N := flat_map (fun c => ASM ++ rx_frame c ++ repeat 77 32) [0xffffff; 0; 1].
Definition rx_p : pipeline := pipeline_with_rs (pipeline_without_derandomization (pipeline_new 40)) (mkRsOpts 1 215 1 3 true true).
Example C68_ex :
  (forall k nthreads out, ~ pipeline_start true k nthreads (mkPipeline false None 40) (reader_of rx_stream) out) /\
  (exists out, pipeline_start true ok_codec 2 rx_p (reader_of rx_stream) out) /\
  (forall out, pipeline_start true ok_codec 2 rx_p (reader_of rx_stream) out -> map f_data out = [rx_frame 0xffffff]).
Proof.
  assert (Y : exists items, yields biter_next (synchronize (reader_of rx_stream) [26; 207; 252; 29] 40) items /\
     oks items = map (fun c => mkBlock (bl_last (nth (N.to_nat c) (oks items) (mkBlock 0 (mkLoc 0 0) []))) (bl_loc (nth (N.to_nat c) (oks items) (mkBlock 0 (mkLoc 0 0) [])))
        (rx_frame ((c + 0xffffff) mod 0x1000000) ++ repeat 77 32)) [0; 1; 2]).
  { eexists. split; [eapply run_yields with (fuel := 10%nat); vm_compute; reflexivity|vm_compute; reflexivity]. }
  destruct Y as (items & Y & EO).
  assert (P : exists f, panics_after (fdec_next true) (frame_decoder (oks items)) [f] /\ f_data f = rx_frame 0xffffff ++ repeat 77 32 /\
     rs_job ok_codec (rs_of_opts (mkRsOpts 1 215 1 3 true true)) f = Val (mkFrame (f_header f) 0 (Some IOk) (rx_frame 0xffffff))).
  { rewrite EO. cbn [map]. eexists. split.
    - eapply panics_cons; [vm_compute; reflexivity|]. apply panics_nil. vm_compute. reflexivity.
    - split; vm_compute; reflexivity. }
  destruct P as (f & P & _ & J). split; [|].
  - intros k nt. apply (C68_caller_sees_panic true k nt (mkPipeline false None 40) (reader_of rx_stream) items [f]); [reflexivity|exact Y|exact P].
  - destruct (C68_rs_truncates_refuted true ok_codec 2 rx_p (mkRsOpts 1 215 1 3 true true) (reader_of rx_stream) items [f]) as [EX H]; try exact Y; try exact P; try reflexivity; try lia.
    + intros g [<-|[]]. rewrite J. discriminate.
    + split; [exact EX|]. intros out PS. destruct (H out PS) as (_ & _ & F). inversion F as [|? f' ? l' J' F']; subst. inversion F'; subst. rewrite J in J'. injection J' as <-. reflexivity.
Qed.
(* the framing command on that file: it exits with success, and every run of it wrote only the frame before the panic *)
Definition rx_args : framing_args :=
  mkFramingArgs None 8 false false (Some 1%nat) true true 215 (Some 1%nat) 3 [] [] (Some 2) 1.
Definition rx_fs : fsys := [(1, rx_stream); (2, [9; 9])].
Example C68_ex_command :
  (exists rep, framing_command true ok_codec 2 (fun _ => true) rx_fs rx_args Success [(1, rx_stream); (2, rx_frame 0xffffff)] (Some rep)) /\
  (forall x fs' rep, framing_command true ok_codec 2 (fun _ => true) rx_fs rx_args x fs' rep ->
     x = Success /\ fs' = [(1, rx_stream); (2, rx_frame 0xffffff)]).
Proof.
  assert (EXP : exists p, framing_setup rx_args = Some (8%nat, p, [], []) /\ p = rx_p) by (eexists; split; vm_compute; reflexivity).
  destruct EXP as (p & EP & ->). destruct C68_ex as (_ & [out PS] & ALL).
  assert (CMD : forall o, map f_data o = [rx_frame 0xffffff] -> pipeline_start true ok_codec 2 rx_p (reader_of rx_stream) o ->
     exists all rows, frame_cmd 8 false [] [] true o = Val (all, rows, rx_frame 0xffffff)).
  { intros o E H. assert (X : exists f, o = [f] /\ f_integrity f = Some IOk /\ v_vcid (f_header f) = 3 /\ f_data f = rx_frame 0xffffff).
    { destruct o as [|f [|g o]]; try discriminate. injection E as E. exists f. split; [reflexivity|].
      assert (Y : exists items, yields biter_next (synchronize (reader_of rx_stream) [26; 207; 252; 29] 40) items /\ exists g, panics_after (fdec_next true) (frame_decoder (oks items)) [g] /\
         rs_job ok_codec (rs_of_opts (mkRsOpts 1 215 1 3 true true)) g = Val (mkFrame (mkVcdu 1 0 3 0xffffff) 0 (Some IOk) (rx_frame 0xffffff))).
      { eexists. split; [eapply run_yields with (fuel := 10%nat); vm_compute; reflexivity|]. eexists. split.
        - eapply panics_cons; [vm_compute; reflexivity|]. apply panics_nil. vm_compute. reflexivity.
        - vm_compute. reflexivity. }
      destruct Y as (items & Y & g & P & J).
      destruct (C68_rs_truncates_refuted true ok_codec 2 rx_p (mkRsOpts 1 215 1 3 true true) (reader_of rx_stream) items [g]) as [_ T]; try exact Y; try exact P; try reflexivity; try lia.
      { intros q [<-|[]]. rewrite J. discriminate. }
      destruct (T _ H) as (_ & _ & F). inversion F as [|? ? ? ? J' _]; subst. rewrite J in J'. injection J' as <-. repeat split; reflexivity. }
    destruct X as ([fh fm fi fd] & -> & A & B & C). cbn in A, B, C. subst. destruct fh as [a b c d]. cbn in B. subst c. do 2 eexists. vm_compute. reflexivity. }
  split.
  - destruct (CMD out (ALL out PS) PS) as (all & rows & E). exists (all, rows).
    change [(1, rx_stream); (2, rx_frame 0xffffff)] with (aset 2 (rx_frame 0xffffff) rx_fs).
    eapply framing_output; try eassumption; try reflexivity. discriminate.
  - intros x fs' rep H. inversion H as [E|len p i e bs frames all rows o E G O|len p i e bs frames all rows o ou E G O C N PS2 F|len p i e bs ou E G O C]; subst; try discriminate; try (rewrite EP in E; discriminate).
    rewrite EP in E. injection E as <- <- <- <-. injection G as <-. injection O as <-.
    destruct (CMD frames (ALL frames PS2) PS2) as (all' & rows' & E'). change (fr_keep_fill rx_args) with false in F. rewrite E' in F. injection F as _ _ <-.
    split; reflexivity.
Qed.
