(* Properties C58 - C60 and C62: options of the commands, the framing command as a whole, the Python file functions,
   read errors *)
From Coq Require Import Floats.SpecFloat Permutation Sorted.
From Verif Require Import Base S_Framing S_Bits S_Packet S_Group S_ReedSolomon M_Reader M_Packet M_Bytes M_Sync M_Pn M_Group M_Timecode M_Frame M_ReedSolomon M_RsPipeline M_Pipeline
  L_Base L_Bits L_Float L_Packet L_Group M_Merge S_Merge L_Merge P_Merge M_Cli S_Cli P_CliFilter P_Frame P_ReedSolomon P_RsPipeline L_Pipeline P_Pipeline P_CliInfo P_CliFrame M_Main S_Main P_Main.
Open Scope N_scope.

(* ---- C58 ---- *)
(* a name that is not known: nothing is done *)
Theorem C58_unknown_order_name : forall h creatable fs a name, ma_apid_order_name a = Some name ->
  name <> [106; 112; 115; 115; 45; 118; 105; 105; 114; 115] -> merge_command h creatable fs a = Val (Failure, fs).
Proof.
  intros h creatable fs a name E N. unfold merge_command. destruct (_ && _); [reflexivity|]. rewrite E. unfold apid_order.
  destruct (list_eq_dec _ _ _) as [C|_]; [destruct (N C)|reflexivity].
Qed.
Print Assumptions C58_unknown_order_name.
(* jpss-viirs overrides a list of apids; of packets with the same time 821 comes before 826, and both come after
   all other apids *)
Theorem C58_jpss_viirs : forall h creatable fs a ws, hash_ok h ->
  ma_apid_order_name a = Some [106; 112; 115; 115; 45; 118; 105; 105; 114; 115] ->
  may_write fs (ma_clobber a) (ma_output a) -> creatable (ma_output a) = true -> ma_inputs a <> [] ->
  (forall p, In p (ma_inputs a) -> p <> ma_output a /\ exists bs, aget p fs = Some bs /\ file_holds bs (ws p)) ->
  let m := mkMerger (ma_inputs a) cds_time [] (option_map to_micros (ma_from a)) (option_map to_micros (ma_to a)) (Some (ma_apids a)) in
  exists sel fs', merge_command h creatable fs a = Val (Success, fs') /\
    only_written fs (ma_output a) (concat (map group_bytes sel)) fs' /\ selection m ws sel /\
    forall x y t ax ay sx sy, before sel x y -> gkey m x = Some (t, ax, sx) -> gkey m y = Some (t, ay, sy) ->
      ax <> 826 /\ (ax = 821 -> ay = 821 \/ ay = 826) \/ ax = 826 /\ ay = 826.
Proof.
  intros h creatable fs a ws HH EN MW CR NI HR m.
  assert (AO : asks_order a [826; 821]) by (unfold asks_order; rewrite EN; auto).
  destruct (C57_merge_command h creatable fs a [826; 821] ws HH MW CR NI AO) as (sel & fs' & E & W & SL & BO).
  { intros p I. right. apply HR. exact I. }
  exists sel, fs'. split; [exact E|]. split; [exact W|]. split; [exact SL|].
  intros x y t ax ay sx sy B KX KY.
  assert (OV : forall b, exists v, order_value [826; 821] b v /\
     ((b = 826 /\ v = 4096%Z) \/ (b = 821 /\ v = 4095%Z) \/ (b <> 826 /\ b <> 821 /\ v = Z.of_N b))).
  { intro b. destruct (N.eq_dec b 826) as [->|N1].
    - exists 4096%Z. split; [|auto]. left. exists 0%nat. split; [reflexivity|]. split; [|reflexivity]. intros [|[|j]] J; [lia|discriminate|]. destruct j; discriminate.
    - destruct (N.eq_dec b 821) as [->|N2].
      + exists 4095%Z. split; [|auto]. left. exists 1%nat. split; [reflexivity|]. split; [|reflexivity]. intros [|[|j]] J; [lia|lia|]. destruct j; discriminate.
      + exists (Z.of_N b). split; [|auto]. right. split; [|reflexivity]. intros [H|[H|[]]]; congruence. }
  assert (AP : forall z tz az sz, In z sel -> gkey m z = Some (tz, az, sz) -> az < 2048).
  { intros z tz az sz I K. destruct SL as (EL & _). rewrite Forall_forall in EL. destruct (EL z I) as (p & gs & f & rest & t' & IP & G & IG & EP & _).
    unfold gkey in K. rewrite EP in K. destruct (mg_time m f); [|discriminate]. injection K as _ <- _.
    cbn [mg_paths with_apid_order] in IP. destruct (HR p IP) as (_ & bs & _ & (HW & _)).
    assert (X : In f (packets_at 0 (ws p))).
    { rewrite <- (grouping_concat _ _ G). apply in_concat. exists (g_packets z). split; [apply in_map; exact IG|rewrite EP; left; reflexivity]. }
    clear -X HW. revert X HW. generalize 0%nat. induction (ws p) as [|w l IH]; intros off X HW; [destruct X|]. inversion HW as [|? ? (HH & _) HF]; subst.
    destruct X as [<-|X]; [unfold apid_of; cbn [p_header]; unfold header_ok in HH; lia|eapply IH; eassumption]. }
  assert (IX : In x sel /\ In y sel).
  { destruct B as (l1 & l2 & l3 & ->). split; apply in_or_app; right; [left; reflexivity|right; apply in_or_app; right; left; reflexivity]. }
  destruct IX as [IX IY]. assert (A1 := AP x _ _ _ IX KX). assert (A2 := AP y _ _ _ IY KY).
  destruct (OV ax) as (ox & O1 & C1). destruct (OV ay) as (oy & O2 & C2).
  specialize (BO x y t t ax ay sx sy ox oy B KX KY O1 O2). lia.
Qed.
Print Assumptions C58_jpss_viirs.
(* --from and --to with whole seconds since 1900 (before the year 2185) are taken exactly *)
Theorem C58_whole_seconds : forall n, n * 1000000 < 2 ^ 53 -> to_micros (f64_of_u64 n) = n * 1000000.
Proof.
  intros n H. unfold to_micros, f64_million. destruct n as [|p]; [reflexivity|]. unfold f64_of_u64. cbn [Z.of_N].
  destruct (normalize_exact false p 0) as (j & m & J & M & E); [lia|lia|]. rewrite E. cbn [SFmul xorb].
  destruct (round_aux_exact false (Zpos p * 1000000) 0 (j + 33)) as (j2 & q & J2 & M2 & E2); [lia|lia|lia|].
  replace (Zpos (m * 8589934592000000)) with (Zpos p * 1000000 * 2 ^ (j + 33))%Z.
  2:{ rewrite Pos2Z.inj_mul, M, Z.pow_add_r by lia. change (2 ^ 33)%Z with 8589934592%Z. lia. }
  replace (0 - j + -33)%Z with (0 - (j + 33))%Z by lia. rewrite E2. cbn [u64_of_f64].
  rewrite (trunc_scale q (Npos p * 1000000) j2 0 J2).
  - unfold trunc_dyadic, U64_MAX. cbn [Z.leb Z.compare Z.to_N]. lia.
  - rewrite M2. lia.
Qed.
Print Assumptions C58_whole_seconds.
(* fractions of a second are not: the double nearest to 4489981509.650142 s (in 2042) becomes a microsecond less *)
Theorem C58_fractions_refuted : exists micros, micros < 2 ^ 53 /\
  to_micros (SFdiv 53 1024 (f64_of_u64 micros) (f64_of_u64 1000000)) = micros - 1.
Proof. exists 4489981509650142. split; [reflexivity|]. vm_compute. reflexivity. Qed.
Print Assumptions C58_fractions_refuted.
(* times before 1900 count as 1900 *)
Theorem C58_before_1900 : forall m e, to_micros (S754_finite true m e) = 0.
Proof.
  intros m e. unfold to_micros, f64_million. cbn [SFmul xorb].
  assert (X : forall mx ex l, match binary_round_aux 53 1024 true mx ex l with S754_finite false _ _ => False | S754_infinity false => False | _ => True end).
  { intros mx ex l. unfold binary_round_aux. destruct (shr_fexp 53 1024 mx ex l) as [r e1]. destruct (shr_fexp 53 1024 _ e1 loc_Exact) as [r' e2].
    destruct (shr_m r'); try exact I. destruct (_ <=? _)%Z; exact I. }
  specialize (X (Zpos (m * 8589934592000000)) (e + -33)%Z loc_Exact). destruct (binary_round_aux _ _ _ _ _ _) as [s|s| |[] mm ee]; try reflexivity; try (destruct X).
  destruct s; [reflexivity|destruct X].
Qed.
Print Assumptions C58_before_1900.
Example C58_ex : to_micros (f64_of_u64 3944678400) = 3944678400000000 /\
  merge_command in_order_h (fun _ => true) mx_fs (mkMergeArgs (Some [1]) (Some JPSS_VIIRS) (Some (f64_of_u64 1830470400)) None [] false 3 [1]) =
    Val (Success, mx_fs ++ [(3, wire_bytes (fl_wire 8 2))]).
Proof. split; vm_compute; reflexivity. Qed.

(* ---- C59 ---- *)
Lemma setup_inv : forall a len p i e, framing_setup a = Some (len, p, i, e) -> exists i0 e0,
  parse_number_ranges (fr_include a) = Some i0 /\ parse_number_ranges (fr_exclude a) = Some e0 /\ i = to_u16s i0 /\ e = to_u16s e0 /\ len <> 0%nat /\
  exists pn rs vf, p = frame_pipeline len pn rs (fr_rs_detect a) (fr_rs_correct a) vf (fr_rs_threads a) (fr_rs_buffersize a) /\
    match fr_config a with
    | None => len = fr_length a /\ pn = fr_pn a /\ rs = fr_rs a /\ vf = fr_rs_virtualfill a
    | Some c => len = cfg_length c /\ pn = cfg_pn c /\
        match cfg_rs c with
        | Some (il, v) => rs = Some (il mod 256)%nat /\ vf = v
        | None => rs = fr_rs a /\ vf = fr_rs_virtualfill a
        end
    end.
Proof.
  intros a len p i e H. unfold framing_setup in H.
  destruct (parse_number_ranges (fr_include a)) as [i0|]; [|discriminate]. destruct (parse_number_ranges (fr_exclude a)) as [e0|]; [|discriminate].
  exists i0, e0. split; [reflexivity|]. split; [reflexivity|].
  destruct (fr_config a) as [c|].
  - destruct (cfg_rs c) as [[il v]|].
    + generalize dependent (il mod 256)%nat. intros q H. destruct (Nat.eqb_spec (cfg_length c) 0); [discriminate|]. injection H as <- <- <- <-.
      repeat (split; [reflexivity|]). split; [assumption|]. exists (cfg_pn c), (Some q), v. auto.
    + destruct (Nat.eqb_spec (cfg_length c) 0); [discriminate|]. injection H as <- <- <- <-.
      repeat (split; [reflexivity|]). split; [assumption|]. exists (cfg_pn c), (fr_rs a), (fr_rs_virtualfill a). auto.
  - destruct (Nat.eqb_spec (fr_length a) 0); try discriminate; injection H as <- <- <- <-;
      repeat (split; [reflexivity|]); (split; [assumption|]). exists (fr_pn a), (fr_rs a), (fr_rs_virtualfill a). auto.
Qed.
(* which options the decoding runs with: those of the config file, where it has them *)
Theorem C59_options : forall a len p i e, framing_setup a = Some (len, p, i, e) ->
  (0 < len)%nat /\
  match fr_config a with
  | None => len = fr_length a /\ pl_derandomize p = fr_pn a /\
      match fr_rs a, pl_rs p with
      | None, None => pl_block_length p = len
      | Some il, Some o => ro_interleave o = il /\ ro_virtual_fill o = fr_rs_virtualfill a /\ pl_block_length p = (len + 32 * il)%nat
      | _, _ => False
      end
  | Some c => len = cfg_length c /\ pl_derandomize p = cfg_pn c /\
      match cfg_rs c, fr_rs a, pl_rs p with
      | None, None, None => pl_block_length p = len
      | None, Some il, Some o => ro_interleave o = il /\ ro_virtual_fill o = fr_rs_virtualfill a /\ pl_block_length p = (len + 32 * il)%nat
      | Some (il, vf), _, Some o => (* the number modulo 256 *)
          ro_interleave o = (il mod 256)%nat /\ ro_virtual_fill o = vf /\ pl_block_length p = (len + 32 * (il mod 256))%nat
      | _, _, _ => False
      end
  end /\
  match pl_rs p with
  | None => True
  | Some o => ro_correct o = fr_rs_correct a /\ ro_buffer_size o = fr_rs_buffersize a /\
      ro_num_threads o = match fr_rs_threads a with Some n => n | None => 0%nat end
  end.
Proof.
  intros a len p i e H. destruct (setup_inv _ _ _ _ _ H) as (i0 & e0 & _ & _ & _ & _ & NZ & pn & rs & vf & -> & HC).
  split; [lia|]. rewrite frame_pipeline_is. cbn [pl_derandomize pl_rs pl_block_length]. split.
  - destruct (fr_config a) as [c|].
    + destruct HC as (-> & -> & HC). split; [reflexivity|]. split; [reflexivity|]. destruct (cfg_rs c) as [[il v]|].
      * destruct HC as [-> ->]. cbn [ro_interleave ro_virtual_fill]. auto.
      * destruct HC as [-> ->]. destruct (fr_rs a); cbn [ro_interleave ro_virtual_fill]; [auto|lia].
    + destruct HC as (-> & -> & -> & ->). split; [reflexivity|]. split; [reflexivity|]. destruct (fr_rs a); cbn [ro_interleave ro_virtual_fill]; [auto|lia].
  - destruct rs; [|exact I]. repeat split; reflexivity.
Qed.
Print Assumptions C59_options.
(* when the arguments are rejected, before any file is touched *)
Theorem C59_rejected : forall ovf k nthreads creatable fs a,
  (framing_setup a = None <->
     (~ exists vs, stands_for (fr_include a) vs) \/ (~ exists vs, stands_for (fr_exclude a) vs) \/
     match fr_config a with Some c => cfg_length c = 0%nat | None => fr_length a = 0%nat end) /\
  (framing_setup a = None -> framing_command ovf k nthreads creatable fs a Failure fs None).
Proof.
  intros. split; [|apply framing_bad_args]. unfold framing_setup, stands_for.
  assert (P : forall l, (exists vs, parse_number_ranges l = Some vs) <-> exists vs vss, Forall2 denotes l vss /\ vs = concat vss).
  { intro l. split; intros [vs E]; exists vs; apply C50_parse_number_ranges; exact E. }
  rewrite <- !P. clear P.
  destruct (parse_number_ranges (fr_include a)) as [i|]; [|split; [intros _; left; intros [vs E]; discriminate|reflexivity]].
  destruct (parse_number_ranges (fr_exclude a)) as [e|]; [|split; [intros _; right; left; intros [vs E]; discriminate|reflexivity]].
  assert (N : forall l : list N, ~ (~ exists vs, Some l = Some vs)) by (intros l C; apply C; eexists; reflexivity).
  destruct (fr_config a) as [c|].
  - destruct (cfg_rs c) as [[il vf]|]; destruct (Nat.eqb_spec (cfg_length c) 0); split; intro H; try discriminate; auto; exfalso;
      destruct H as [H|[H|H]]; [exact (N _ H)|exact (N _ H)|contradiction|exact (N _ H)|exact (N _ H)|contradiction].
  - destruct (Nat.eqb_spec (fr_length a) 0); split; intro H; try discriminate; auto; exfalso;
      destruct H as [H|[H|H]]; [exact (N _ H)|exact (N _ H)|contradiction].
Qed.
Print Assumptions C59_rejected.
(* the sync marker of the config file is not used *)
Theorem C59_asm_ignored_refuted : forall ovf k nthreads creatable fs a c asm x fs' r, fr_config a = Some c ->
  framing_command ovf k nthreads creatable fs a x fs' r ->
  framing_command ovf k nthreads creatable fs
    (mkFramingArgs (Some (mkConfig asm (cfg_length c) (cfg_pn c) (cfg_rs c))) (fr_length a) (fr_pn a) (fr_keep_fill a) (fr_rs a) (fr_rs_detect a)
       (fr_rs_correct a) (fr_rs_virtualfill a) (fr_rs_threads a) (fr_rs_buffersize a) (fr_include a) (fr_exclude a) (fr_output a) (fr_input a)) x fs' r.
Proof.
  intros ovf k nt creatable fs a c asm x fs' r EC H.
  set (a' := mkFramingArgs _ _ _ _ _ _ _ _ _ _ _ _ _ _).
  assert (ES : framing_setup a' = framing_setup a) by (unfold framing_setup, a'; cbn; rewrite EC; reflexivity).
  inversion H; subst; rewrite <- ES in *.
  - apply framing_bad_args; assumption.
  - eapply framing_no_output; eassumption.
  - eapply framing_output; eassumption.
  - eapply framing_cannot_create; eassumption.
Qed.
Print Assumptions C59_asm_ignored_refuted.

Lemma decode_vcid_small : forall d h, vcdu_decode d = Val (Some h) -> v_vcid h < 64.
Proof.
  intros d h. unfold vcdu_decode. destruct (_ <? _)%nat; [discriminate|]. destruct (get d 0) as [b0|]; [|discriminate]. cbn [obind].
  destruct (N.land (N.shiftr b0 6) 3) as [|[| |]]; try discriminate.
  - unfold vcdu_decode_v1. do 4 (destruct (get d _); [|discriminate]; cbn [obind]). intro E. injection E as <-. cbn [v_vcid].
    rewrite (and_mask _ 3) by reflexivity. assert (X := N.mod_lt (N.shiftr (be16 a a0) 1) (2 ^ 3)). lia.
  - unfold vcdu_decode_v2. do 5 (destruct (get d _); [|discriminate]; cbn [obind]). intro E. injection E as <-. cbn [v_vcid].
    rewrite (and_mask _ 6) by reflexivity. assert (X := N.mod_lt (be16 a a0) (2 ^ 6)). lia.
Qed.
Lemma pipeline_vcid_small : forall ovf k nt p r frames, pipeline_start ovf k nt p r frames -> Forall (fun f => v_vcid (f_header f) < 64) frames.
Proof.
  intros ovf k nt p r frames H. inversion H as [items blocks fs out Y1 EB Y2 HR]; subst out.
  assert (HF : Forall (fun f => v_vcid (f_header f) < 64) fs).
  { apply decoded_prefix in Y2. destruct Y2 as (b1 & b2 & _ & Y2). clear -Y2. remember (frame_decoder b1) as s eqn:E. clear E. induction Y2 as [|s s' f items E Y IH]; [constructor|]. constructor; [|exact IH].
    unfold fdec_next in E. destruct (fd_cadus s) as [|c rest]; [discriminate|]. destruct (vcdu_decode (bl_data c)) as [[h|]|] eqn:D; cbn [obind] in E; try discriminate.
    destruct (if negb (v_vcid h =? VCID_FILL) then _ else _) as [m|]; cbn [obind] in E; [|discriminate]. injection E as <- _. cbn [f_header]. eapply decode_vcid_small; exact D. }
  destruct (pl_rs p) as [o|]; [|subst; exact HF]. destruct HR as (s & R & C & <-). assert (X := ended_all _ _ _ _ _ _ R C).
  clear -X HF. induction X as [|f f' l l' J _ IH]; [constructor|]. inversion HF; subst. constructor; [|apply IH; assumption].
  destruct (C44_stage_keeps_data _ _ _ _ J) as (-> & _). assumption.
Qed.
(* The framing command: for every execution of the pipeline on the input file it succeeds, writes [len] bytes of every
   usable frame looked at to the output, even if that exists, and reports these frames. *)
Theorem C59_framing_command : forall ovf k nthreads creatable fs a len p i e include exclude bs frames sel good o,
  codec_ok k -> framing_setup a = Some (len, p, i, e) ->
  match pl_rs p with Some op => (1 <= ro_interleave op)%nat | None => True end ->
  stands_for (fr_include a) include -> stands_for (fr_exclude a) exclude ->
  aget (fr_input a) fs = Some bs -> pipeline_start ovf k nthreads p (reader_of bs) frames ->
  fr_output a = Some o -> o <> fr_input a -> creatable o = true ->
  kept (looked_at a include exclude) frames sel -> kept usable sel good ->
  exists all rows fs', framing_command ovf k nthreads creatable fs a Success fs' (Some (all, rows)) /\
    only_written fs o (concat (map (fun f => firstn len (f_data f)) good)) fs' /\
    tallies sel all /\
    StronglySorted N.lt (map fst rows) /\
    (forall v, In v (map fst rows) <-> exists f, In f sel /\ v_vcid (f_header f) = v) /\
    (forall v t, In (v, t) rows -> tallies (filter (fun f => v_vcid (f_header f) =? v) sel) t).
Proof.
  intros ovf k nt creatable fs a len p i e include exclude bs frames sel good o HK HS HI SI SE GI PS EO NE CR K1 K2.
  destruct (setup_inv _ _ _ _ _ HS) as (i0 & e0 & P1 & P2 & -> & -> & NZ & pn & rs & vf & EP & _).
  rewrite (stands_parse _ _ SI) in P1. injection P1 as <-. rewrite (stands_parse _ _ SE) in P2. injection P2 as <-.
  assert (SM := pipeline_vcid_small _ _ _ _ _ _ PS).
  assert (K1' : kept (chosen (fr_keep_fill a) (to_u16s include) (to_u16s exclude)) frames sel).
  { eapply kept_ext; [|exact K1]. intros f If. rewrite Forall_forall in SM. specialize (SM f If). unfold looked_at, chosen. rewrite wanted_accepted by (cbn in SM; lia). reflexivity. }
  assert (PS' := PS). rewrite EP in PS'. assert (HI' : match rs with Some il => (1 <= il)%nat | None => True end) by (rewrite EP, frame_pipeline_is in HI; destruct rs; exact HI).
  destruct (C53_pipeline _ _ _ _ _ _ _ _ _ _ _ _ _ HK HI' PS') as [LEN _].
  assert (SUB : forall A (P : A -> Prop) l m, kept P l m -> forall x, In x m -> In x l /\ P x).
  { clear. induction 1; intros y I; [destruct I| |]; [destruct I as [<-|I]|]; [split; [left; reflexivity|assumption]| |]; destruct (IHkept y I); split; auto; right; assumption. }
  destruct (C53_report len (fr_keep_fill a) (to_u16s include) (to_u16s exclude) true frames sel K1') as (all & rows & out & E & T & SO & RV & RT & good' & K3 & OU).
  { intros _. apply Forall_forall. intros f If U. rewrite Forall_forall in LEN. apply LEN; [|exact U]. apply (SUB _ _ _ _ K1' f If). }
  rewrite (kept_unique _ _ _ _ _ K3 K2) in OU. exists all, rows, (aset o out fs).
  split; [eapply framing_output; eassumption|]. split; [rewrite OU; apply only_written_aset|]. auto.
Qed.
Print Assumptions C59_framing_command.
(* a config file whose interleave is a multiple of 256: the decoding does not survive the first frame that is not fill *)
Theorem C59_interleave_256_refuted : forall ovf k nthreads creatable fs a c n vf x fs' r bs,
  fr_config a = Some c -> cfg_rs c = Some (256 * n, vf)%nat -> aget (fr_input a) fs = Some bs ->
  framing_command ovf k nthreads creatable fs a x fs' (Some r) ->
  exists len p i e frames, framing_setup a = Some (len, p, i, e) /\ pipeline_start ovf k nthreads p (reader_of bs) frames /\
    Forall (fun f => v_vcid (f_header f) = 63) frames.
Proof.
  assert (MAIN : forall ovf k nt a c n vf len p i e bs frames, fr_config a = Some c -> cfg_rs c = Some (256 * n, vf)%nat ->
     framing_setup a = Some (len, p, i, e) -> pipeline_start ovf k nt p (reader_of bs) frames -> Forall (fun f => v_vcid (f_header f) = 63) frames).
  { intros ovf k nt a c n vf len p i e bs frames EC ER HS PS. assert (HO := C59_options _ _ _ _ _ HS). rewrite EC, ER in HO.
    destruct HO as (L0 & (_ & _ & HO) & _). destruct (pl_rs p) as [o|] eqn:EP; [|destruct HO]. destruct HO as (IL & VF & BL).
    assert (IL0 : ro_interleave o = 0%nat). { rewrite IL, Nat.mul_comm. apply Nat.mod_mul. discriminate. }
    assert (BL0 : pl_block_length p = len). { rewrite BL, <- IL, IL0. lia. }
    inversion PS as [items blocks fs' out Y1 EB Y2 HR]; subst out. rewrite EP in HR. destruct HR as (s & R & CE & <-).
    assert (X := ended_all _ _ _ _ _ _ R CE).
    assert (HB : Forall (fun b => length (bl_data b) = len) blocks).
    { apply P_Sync.C28_block_lengths in Y1; [|discriminate]. rewrite BL0 in Y1.
      assert (HO : Forall (fun b => length (bl_data b) = len) (oks items)).
      { clear -Y1. induction items as [|[b|er] items IH]; cbn [oks]; inversion Y1; subst; auto. }
      subst blocks. destruct (pl_derandomize _); [|exact HO]. unfold derandomize. apply Forall_map. eapply Forall_impl; [|exact HO].
      cbn. intros b <-. unfold derandomize_cadu. cbn [bl_data]. apply P_Pn.C30_derandomize_length_bytes. }
    assert (HF : Forall (fun f => length (f_data f) = len) fs').
    { apply decoded_prefix in Y2. destruct Y2 as (b1 & b2 & EB2 & Y2). rewrite EB2 in HB. apply Forall_app in HB. destruct HB as [HB _].
      destruct (C33_frames ovf b1 fs' Y2) as [A _]. apply Forall_forall. intros f If. apply In_nth_error in If. destruct If as [j Ei].
      destruct (A j f Ei) as (cc & Ec & D & _). rewrite D. rewrite Forall_forall in HB. apply HB. eapply nth_error_In. exact Ec. }
    clear -X HF IL0 L0. induction X as [|f f' l l' J _ IH]; [constructor|]. apply Forall_cons_iff in HF. destruct HF as [LF HF']. constructor; [|apply IH; exact HF'].
    destruct (C44_stage_keeps_data _ _ _ _ J) as (-> & _). unfold rs_job in J. change VCID_FILL with 63 in J.
    destruct (N.eqb_spec (v_vcid (f_header f)) 63) as [E|E]; [exact E|]. exfalso. cbn [negb] in J.
    unfold perform, can_correct in J. replace (rs_interleave (rs_of_opts o)) with 0%nat in J by (symmetry; exact IL0).
    rewrite Nat.mul_0_r in J. destruct (Nat.eqb_spec (length (f_data f) + rs_virtual_fill (rs_of_opts o)) 0) as [Z|Z]; [lia|]. cbn [negb obind] in J. discriminate. }
  intros ovf k nt creatable fs a c n vf x fs' r bs EC ER GI H.
  inversion H as [|len p i e bs' frames all rows out HS GI' EO PS FC| len p i e bs' frames all rows out o HS GI' EO CR NE PS FC|]; subst;
    rewrite GI in GI'; injection GI' as <-; exists len, p, i, e, frames; (split; [exact HS|]); (split; [exact PS|]); eapply MAIN; eassumption.
Qed.
Print Assumptions C59_interleave_256_refuted.

(* ---- C60 ---- *)
Theorem C60_python_files : forall fs path bs ws gs, aget path fs = Some bs -> file_holds bs ws -> grouping (packets_at 0 ws) gs ->
  py_decode_packets fs path = Val (Some (packets_at 0 ws)) /\ py_decode_packet_groups fs path = Val (Some gs).
Proof.
  intros fs path bs ws gs E F G. unfold py_decode_packets, py_decode_packet_groups. rewrite E, (file_packets_ok _ _ F). cbn [obind].
  rewrite (file_groups_ok _ _ G). split; reflexivity.
Qed.
Print Assumptions C60_python_files.
Theorem C60_python_missing_file : forall fs path, aget path fs = None ->
  py_decode_packets fs path = Val None /\ py_decode_packet_groups fs path = Val None.
Proof. intros fs path E. unfold py_decode_packets, py_decode_packet_groups. rewrite E. split; reflexivity. Qed.
Print Assumptions C60_python_missing_file.
Example C60_ex : py_decode_packet_groups mx_fs 1 = Val (Some [mkGroup 7 [mkPacket (w_header (fl_wire 7 1)) (wire_bytes (fl_wire 7 1)) 0];
  mkGroup 8 [mkPacket (w_header (fl_wire 8 2)) (wire_bytes (fl_wire 8 2)) 15]]) /\ py_decode_packets mx_fs 2 = Val (Some []).
Proof. split; vm_compute; reflexivity. Qed.

(* ---- C62 ---- *)
(* a read error in the middle of the input: filtering by apids only ends there, without saying so; everything else
   carries on behind it *)
Theorem C62_read_errors : forall csum ovf time_of e l1 l2 r include exclude before after,
  let broken := map Ok l1 ++ Err e :: l2 in
  (before = None /\ after = None -> filter_cmd broken include exclude before after = filter_cmd (map Ok l1) include exclude before after) /\
  (before <> None \/ after <> None ->
     filter_cmd broken include exclude before after = filter_cmd (map Ok l1 ++ l2) include exclude before after) /\
  summarize ovf time_of broken = summarize ovf time_of (map Ok l1 ++ l2) /\
  diff_cmd csum broken r = diff_cmd csum (map Ok l1 ++ l2) r /\ diff_cmd csum r broken = diff_cmd csum r (map Ok l1 ++ l2).
Proof.
  intros csum ovf time_of e l1 l2 r include exclude before after broken.
  assert (K : keep_ok broken = keep_ok (map Ok l1 ++ l2)).
  { unfold broken. clear. induction l1 as [|p l1 IH]; cbn [map app keep_ok]; [reflexivity|]. rewrite IH. reflexivity. }
  assert (W : map_while_ok broken = map_while_ok (map Ok l1)).
  { unfold broken. clear. induction l1 as [|p l1 IH]; cbn [map app map_while_ok]; [reflexivity|]. rewrite IH. reflexivity. }
  split; [|split; [|split; [|split]]].
  - intros [-> ->]. unfold filter_cmd. cbn [is_none negb orb]. rewrite W. reflexivity.
  - intro H. unfold filter_cmd. replace (negb (is_none before) || negb (is_none after)) with true by (destruct before, after; cbn; try reflexivity; destruct H; congruence).
    unfold packets_with_times. rewrite K. reflexivity.
  - unfold summarize. rewrite K. reflexivity.
  - unfold diff_cmd. rewrite K. reflexivity.
  - unfold diff_cmd. rewrite K. reflexivity.
Qed.
Print Assumptions C62_read_errors.
Example C62_ex : let p a := mkPacket (mkHeader 0 0 false a 3 1 0) [0; a; 192; 1; 0; 0; 9] 0 in
  filter_cmd [Ok (p 5); Err (Io (OtherIo 1)); Ok (p 6)] [] [7] None None = Val (Some (p_data (p 5))) /\
  option_map i_total (match summarize true None [Ok (p 5); Err (Io (OtherIo 1)); Ok (p 6)] with Val (s, _) => Some s | _ => None end) = Some 2.
Proof. split; vm_compute; reflexivity. Qed.

(* a file with one CADU of channel 3 and one fill CADU, 8 byte frames, onto an existing output *)
Definition fx_args (cfg : option config) (rs : option nat) : framing_args :=
  mkFramingArgs cfg 8 false false rs false false 0 None 50 [[51]] [] (Some 2) 1.
Definition fx_frame (v : N) : list N := [64 + 0; v; 0; 0; 7; 0; 1; 2].
Definition fx_fs : fsys := [(1, ASM ++ fx_frame 3 ++ ASM ++ fx_frame 63); (2, [9; 9])].
Example C59_ex : forall k nthreads, exists all rows,
  framing_command true k nthreads (fun _ => true) fx_fs (fx_args None None) Success
    [(1, ASM ++ fx_frame 3 ++ ASM ++ fx_frame 63); (2, fx_frame 3)] (Some (all, rows)) /\ fi_total_frames all = 1.
Proof.
  intros k nt. do 2 eexists. split.
  - change [(1, ASM ++ fx_frame 3 ++ ASM ++ fx_frame 63); (2, fx_frame 3)] with (aset 2 (fx_frame 3) fx_fs).
    eapply framing_output; try reflexivity; [discriminate| |].
    + eapply start_intro; [| reflexivity | |reflexivity].
      * eapply run_yields with (fuel := 10%nat). vm_compute. reflexivity.
      * left. eapply run_yields with (fuel := 10%nat). vm_compute. reflexivity.
    + vm_compute. reflexivity.
  - reflexivity.
Qed.
Example C59_ex_config : option_map (fun x => match x with (len, p, _, _) => (len, pl_derandomize p, option_map ro_interleave (pl_rs p), pl_block_length p) end)
    (framing_setup (fx_args (Some (mkConfig (Some [1; 2]) 892%nat true (Some (256, 0)%nat))) (Some 4%nat))) = Some (892%nat, true, Some 0%nat, 892%nat) /\
  framing_setup (fx_args (Some (mkConfig None 0%nat true None)) None) = None.
Proof. split; vm_compute; reflexivity. Qed.
