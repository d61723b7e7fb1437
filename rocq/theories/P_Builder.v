(* Property C65: what the options of the Pipeline builder mean *)
From Verif Require Import Base L_Base M_Reader M_Bytes M_Sync M_Pn M_Frame M_ReedSolomon M_RsPipeline M_Pipeline S_Bits S_Pn P_Pn P_Frame.
Open Scope nat_scope.

(* Without Reed-Solomon: frame i of the pipeline is block i that the synchronizer delivers behind the standard
   marker, with the length given to Pipeline::new, bit for bit, or exclusive-or the CCSDS sequence unless that was
   switched off; no integrity is claimed. *)
Theorem C65_frames_are_blocks : forall ovf k nthreads len plain r frames,
  let p := if plain : bool then pipeline_without_derandomization (pipeline_new len) else pipeline_new len in
  pipeline_start ovf k nthreads p r frames ->
  exists items, yields biter_next (synchronize r [26; 207; 252; 29]%N len) items /\
    forall i f, nth_error frames i = Some f -> f_integrity f = None /\
      exists b, nth_error (oks items) i = Some b /\ length (f_data f) = length (bl_data b) /\
        forall n, n < 8 * length (bl_data b) ->
          nth n (bits (f_data f)) false = xorb (nth n (bits (bl_data b)) false) (if plain then false else pn n).
Proof.
  intros ovf k nt len plain r frames p H. inversion H as [items blocks fs out Y1 EB Y2 HR]; subst out.
  assert (RS : pl_rs p = None) by (unfold p; destruct plain; reflexivity). rewrite RS in HR, Y2. subst fs.
  destruct Y2 as [Y2|[X _]]; [|congruence].
  assert (BL : pl_block_length p = len) by (unfold p; destruct plain; reflexivity). rewrite BL in Y1.
  assert (DR : pl_derandomize p = negb plain) by (unfold p; destruct plain; reflexivity). rewrite DR in EB.
  exists items. split; [exact Y1|]. intros i f Ei. destruct (C33_frames _ _ _ Y2) as [A _].
  destruct (A i f Ei) as (c & Ec & D & _ & I & _). split; [exact I|]. destruct plain; cbn [negb] in EB; subst blocks.
  - exists c. split; [exact Ec|]. rewrite D. split; [reflexivity|]. intros n L. rewrite xorb_false_r. reflexivity.
  - unfold derandomize in Ec. rewrite nth_error_map in Ec. destruct (nth_error (oks items) i) as [b|]; [|discriminate].
    injection Ec as <-. exists b. split; [reflexivity|]. rewrite D. unfold derandomize_cadu. cbn [bl_data].
    destruct (C30_derandomize_length_bytes (bl_data b)) as [L _]. split; [exact L|]. intros n Ln. apply C30_derandomize_bits. exact Ln.
Qed.
Print Assumptions C65_frames_are_blocks.
(* the order of the builder calls does not matter, and the last Reed-Solomon options win *)
Theorem C65_builder_calls : forall ovf k nthreads p o o' r frames,
  (pipeline_start ovf k nthreads (pipeline_with_rs (pipeline_without_derandomization p) o) r frames <->
   pipeline_start ovf k nthreads (pipeline_without_derandomization (pipeline_with_rs p o)) r frames) /\
  (pipeline_start ovf k nthreads (pipeline_with_rs (pipeline_with_rs p o') o) r frames <->
   pipeline_start ovf k nthreads (pipeline_with_rs p o) r frames) /\
  (pipeline_start ovf k nthreads (pipeline_without_derandomization (pipeline_without_derandomization p)) r frames <->
   pipeline_start ovf k nthreads (pipeline_without_derandomization p) r frames).
Proof. intros. split; [|split]; reflexivity. Qed.
Print Assumptions C65_builder_calls.
(* With Reed-Solomon: the same frames go into the stage (those before the panic, where the pipeline without
   Reed-Solomon panics: see C68), and what comes out is, one for one, these frames processed *)
Theorem C65_with_rs : forall ovf k nthreads p o r out,
  pipeline_start ovf k nthreads (pipeline_with_rs p o) r out ->
  exists frames,
    (pipeline_start ovf k nthreads (mkPipeline (pl_derandomize p) None (pl_block_length p)) r frames \/
     exists items, yields biter_next (synchronize r [26; 207; 252; 29]%N (pl_block_length p)) items /\
       panics_after (fdec_next ovf) (frame_decoder (if pl_derandomize p then derandomize (oks items) else oks items)) frames) /\
    exists s, reachable (rs_job k (rs_of_opts o)) (ro_buffer_size o) nthreads frames s /\ st_consumer s = CEnded /\ st_recv s = out.
Proof.
  intros ovf k nt p o r out H. inversion H as [items blocks fs out' Y1 EB Y2 HR]; subst out'. cbn [pl_rs pipeline_with_rs] in HR.
  exists fs. split; [|exact HR]. destruct Y2 as [Y2|[_ Y2]].
  - left. eapply start_intro; [exact Y1|exact EB|left; exact Y2|reflexivity].
  - right. exists items. split; [exact Y1|]. subst blocks. exact Y2.
Qed.
Print Assumptions C65_with_rs.

Definition bx_bytes : list N := ([26; 207; 252; 29] ++ [64; 5; 0; 0; 7; 0; 1; 2])%N.
Example C65_ex : forall k nthreads, exists frames,
  pipeline_start true k nthreads (pipeline_without_derandomization (pipeline_new 8)) (reader_of bx_bytes) frames /\
  map f_data frames = [[64; 5; 0; 0; 7; 0; 1; 2]%N].
Proof.
  intros k nt. eexists. split.
  - eapply start_intro; [| reflexivity | |reflexivity].
    + eapply run_yields with (fuel := 10%nat). vm_compute. reflexivity.
    + left. eapply run_yields with (fuel := 10%nat). vm_compute. reflexivity.
  - reflexivity.
Qed.
