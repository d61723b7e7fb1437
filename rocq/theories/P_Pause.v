(* C80: collect_groups, frame_decoder and packet_decoder over an iterator that pauses (reports an end and goes on
   afterwards), that panics or that does not return *)
From Verif Require Import Base M_Reader M_Packet M_Sync M_Pn M_Frame M_FramePackets M_Group S_Group L_Base L_Packet L_Group L_Merge M_Live S_Live L_Live M_Pipeline M_Pause S_Pause L_Pause.
Open Scope nat_scope.

(* packet_decoder keeps what it knows across pauses: it reports an end whenever the source does, and up to each of these it
   has returned what it returns on the frames so far without pauses *)
Theorem C80_packet_decoder : forall S (next : pullable S frame) izone trailer src parts h out, steady next -> sittings next src parts h ->
  yields (fpiter_next izone trailer) (packet_decoder (concat parts)) out ->
  exists outs h', sittings (unpack_next izone trailer next) (unpack_new src) outs h' /\
    status_of h' = status_of h /\ length outs = length parts /\
    forall k, yields (fpiter_next izone trailer) (packet_decoder (concat (firstn k parts))) (concat (firstn k outs)).
Proof.
  intros S next izone trailer src parts h out M P Y. apply steady_mono in M. apply frun_yields in Y as [_ Y].
  assert (U := unpack_sittings izone trailer _ _ M _ _ _ P []). set (o := over (frun izone trailer) [] parts) in *.
  assert (NO : snd o <> None) by (unfold o; rewrite (proj2 (over_concat _ _ _ _ (frun_app_run izone trailer) parts [])); exact Y).
  exists (fst o). eexists. split; [exact U|]. split; [apply carried_status; exact NO|]. split; [apply over_length; exact NO|].
  intro k. apply frun_yields. destruct (over_prefix _ _ _ (frun izone trailer) parts [] k NO) as [F N]. fold o in F. rewrite <- F.
  destruct (over_concat _ _ _ _ (frun_app_run izone trailer) (firstn k parts) []) as [C1 C2]. rewrite <- C1, <- C2. auto.
Qed.
Print Assumptions C80_packet_decoder.
(* a frame that makes it panic does so whenever it comes, after all packets before *)
Theorem C80_packet_decoder_panic : forall S (next : pullable S frame) izone trailer src parts h out, steady next -> sittings next src parts h ->
  panics_after (fpiter_next izone trailer) (packet_decoder (concat parts)) out ->
  exists outs, sittings (unpack_next izone trailer next) (unpack_new src) outs Breaks /\ concat outs = out /\ length outs <= length parts.
Proof.
  intros S next izone trailer src parts h out M P Y. apply steady_mono in M. apply frun_panics in Y as [YE Y].
  assert (U := unpack_sittings izone trailer _ _ M _ _ _ P []). set (o := over (frun izone trailer) [] parts) in *.
  destruct (over_concat _ _ _ _ (frun_app_run izone trailer) parts []) as [C1 C2]. fold o in C1, C2. rewrite C2, Y in U. cbn [carried] in U.
  exists (fst o). split; [exact U|]. split; [rewrite C1; exact YE|apply over_length].
Qed.
Print Assumptions C80_packet_decoder_panic.
Theorem C80_packet_decoder_total : forall izone trailer frames,
  (exists out, yields (fpiter_next izone trailer) (packet_decoder frames) out) \/
  (exists out, panics_after (fpiter_next izone trailer) (packet_decoder frames) out).
Proof.
  intros. assert (F := frun_list izone trailer frames [] []). unfold packet_decoder. destruct (snd (frun izone trailer [] frames)); [left|right]; eexists; exact F.
Qed.
Print Assumptions C80_packet_decoder_total.

Lemma cuts_long' : forall parts, Forall (Forall (fun c => unreadable c = false)) (concat (map cut parts)).
Proof. induction parts as [|l ls IH]; [constructor|]. cbn [map concat]. apply Forall_app. split; [apply cut_long|exact IH]. Qed.
Lemma cuts_long : forall parts, Forall (fun c => unreadable c = false) (concat (concat (map cut parts))).
Proof.
  induction parts as [|l ls IH]; [constructor|]. cbn [map concat]. rewrite concat_app. apply Forall_app. split; [|exact IH].
  assert (F := cut_long l). induction F; cbn [concat]; [constructor|]. apply Forall_app. split; assumption.
Qed.
(* frame_decoder: likewise, the counters are kept; an unreadable CADU is one more pause *)
Theorem C80_frame_decoder : forall S (next : pullable S block) ovf src parts h out, sittings next src parts h ->
  let cuts := concat (map cut parts) in
  yields (fdec_next ovf) (frame_decoder (concat cuts)) out ->
  exists outs h', sittings (decoding_next ovf next) (decoding_new src) outs h' /\
    status_of h' = status_of h /\ length outs = length cuts /\
    forall k, yields (fdec_next ovf) (frame_decoder (concat (firstn k cuts))) (concat (firstn k outs)).
Proof.
  intros S next ovf src parts h out P cuts Y.
  assert (L := cuts_long' parts). fold cuts in L.
  assert (LC : forall k, Forall (fun c => unreadable c = false) (concat (firstn k cuts))).
  { intro k. clear Y P. revert k. induction L as [|x xs HX L IH]; intros [|k]; cbn [firstn concat]; try constructor. apply Forall_app. split; [exact HX|apply IH]. }
  apply drun_yields in Y as [_ Y]; [|specialize (LC (length cuts)); rewrite firstn_all in LC; exact LC].
  assert (U := decoding_sittings ovf next _ _ _ P []). fold cuts in U. set (o := over (drun ovf) [] cuts) in *.
  assert (NO : snd o <> None) by (unfold o; rewrite (proj2 (over_concat _ _ _ _ (drun_app_run ovf) cuts [])); exact Y).
  exists (fst o). eexists. split; [exact U|]. split; [apply carried_status; exact NO|]. split; [apply over_length; exact NO|].
  intro k. apply drun_yields; [apply LC|]. destruct (over_prefix _ _ _ (drun ovf) cuts [] k NO) as [F N]. fold o in F. rewrite <- F.
  destruct (over_concat _ _ _ _ (drun_app_run ovf) (firstn k cuts) []) as [C1 C2]. rewrite <- C1, <- C2. auto.
Qed.
Print Assumptions C80_frame_decoder.
Theorem C80_frame_decoder_panic : forall S (next : pullable S block) ovf src parts h out, sittings next src parts h ->
  let cuts := concat (map cut parts) in
  panics_after (fdec_next ovf) (frame_decoder (concat cuts)) out ->
  exists outs, sittings (decoding_next ovf next) (decoding_new src) outs Breaks /\ concat outs = out /\ length outs <= length cuts.
Proof.
  intros S next ovf src parts h out P cuts Y. apply drun_panics in Y as [YE Y]; [|apply cuts_long].
  assert (U := decoding_sittings ovf next _ _ _ P []). fold cuts in U. set (o := over (drun ovf) [] cuts) in *.
  destruct (over_concat _ _ _ _ (drun_app_run ovf) cuts []) as [C1 C2]. fold o in C1, C2. rewrite C2, Y in U. cbn [carried] in U.
  exists (fst o). split; [exact U|]. split; [rewrite C1; exact YE|apply over_length].
Qed.
Print Assumptions C80_frame_decoder_panic.

(* derandomize passes pauses on *)
Theorem C80_derandomize : forall S (next : pullable S block) src parts h, sittings next src parts h ->
  sittings (derandomized next) src (map (map derandomize_cadu) parts) h.
Proof.
  intros S next src parts h P. induction P as [s l h P|s l s' ls h P P2 IH]; cbn [map].
  - apply sit_last. apply pulls_mapped. exact P.
  - eapply sit_more; [apply pulls_mapped; exact P|exact IH].
Qed.
Print Assumptions C80_derandomize.

(* collect_groups: ends of the source while a group is open end the group and are not reported; the first end at another
   point is reported and final, whatever the source still has *)
Theorem C80_groups : forall S (next : pullable S packet) src parts s' gs b, steady next -> sittings next src parts (EndsIn s') ->
  paused_groups parts gs b ->
  if b then exists t, pulls (ga_next next) (mkGather src None false) gs (EndsIn t) /\ forall n, ga_next next n t = Some (Val (None, t))
  else hands (ga_next next) (mkGather src None false) gs (mkGather s' None false).
Proof.
  intros S next src parts s' gs b M P. apply steady_mono in M. remember (EndsIn s') as h eqn:EH. revert gs b.
  assert (ONE : forall s l s1 gs, pulls next s l (EndsIn s1) -> grouping l gs ->
     (ends_open gs -> hands (ga_next next) (mkGather s None false) gs (mkGather s1 None false)) /\
     (~ ends_open gs -> exists t, pulls (ga_next next) (mkGather s None false) gs (EndsIn t) /\ forall n, ga_next next n t = Some (Val (None, t)))).
  { intros s l s1 gs P1 G. destruct (gather_pulls next M _ _ G s None l (EndsIn s1) P1 eq_refl) as [G1 G2]. split; [exact G1|].
    intro N. eexists. split; [apply G2; exact N|reflexivity]. }
  induction P as [s l h P|s l s1 ls h P P2 IH]; intros gs b G; subst h.
  - inversion G as [|? ? gs1 gs2 ? GR O G2|? ? gs1 GR O]; subst; destruct (ONE _ _ _ _ P GR) as [O1 O2].
    + inversion G2; subst. rewrite app_nil_r. apply O1. exact O.
    + apply O2. exact O.
  - inversion G as [|? ? gs1 gs2 ? GR O G2|? ? gs1 GR O]; subst; destruct (ONE _ _ _ _ P GR) as [O1 O2].
    + specialize (IH eq_refl _ _ G2). destruct b.
      * destruct IH as (t & PT & F). exists t. split; [|exact F]. eapply hands_pulls; [apply O1; exact O|exact PT].
      * eapply hands_app; [apply O1; exact O|exact IH].
    + apply O2. exact O.
Qed.
Print Assumptions C80_groups.
Theorem C80_groups_total : forall parts, exists gs b, paused_groups parts gs b /\ forall gs' b', paused_groups parts gs' b' -> gs' = gs /\ b' = b.
Proof.
  induction parts as [|l ls (gs2 & b & P & U)].
  - exists [], false. split; [constructor|]. intros gs' b' P. inversion P. auto.
  - destruct (grouping_total l) as [gs G]. destruct (ends_open_dec gs) as [O|O]; [eapply Forall_impl; [|eapply grouping_wf; exact G]; intros g [X _]; exact X| |].
    + exists (gs ++ gs2), b. split; [apply pg_goes_on; assumption|]. intros gs' b' P'. inversion P' as [|? ? g1 g2 ? G1 O1 P1|? ? g1 G1 O1]; subst.
      * rewrite (grouping_det _ _ _ G1 G). destruct (U _ _ P1) as [-> ->]. auto.
      * rewrite (grouping_det _ _ _ G1 G) in O1. contradiction.
    + exists gs, true. split; [apply pg_stops; assumption|]. intros gs' b' P'. inversion P' as [|? ? g1 g2 ? G1 O1 P1|? ? g1 G1 O1]; subst.
      * rewrite (grouping_det _ _ _ G1 G) in O1. contradiction.
      * rewrite (grouping_det _ _ _ G1 G). auto.
Qed.
Print Assumptions C80_groups_total.

Lemma scripted_pulls : forall A (l : list A) rest, pulls (direct scripted) (map Some l ++ None :: rest) l (EndsIn rest).
Proof.
  intros A l rest. induction l as [|a l IH]; cbn [map app].
  - eapply pulls_end with (n := 0). reflexivity.
  - eapply pulls_item with (n := 0); [reflexivity|exact IH].
Qed.
Theorem C80_sources : forall A (parts : list (list A)), parts <> [] ->
  steady (direct (@scripted A)) /\ sittings (direct scripted) (script parts) parts (EndsIn []).
Proof.
  intros A parts H. split; [intros n m s x _ E; exact E|]. destruct parts as [|l ls]; [congruence|]. clear H. revert l.
  induction ls as [|l' ls IH]; intro l; cbn [script map concat]; rewrite <- app_assoc.
  - apply sit_last. apply scripted_pulls.
  - eapply sit_more; [apply scripted_pulls|]. apply IH.
Qed.
Print Assumptions C80_sources.

(* what a source delivers after a pause that follows a standalone packet, or right at the start, never arrives *)
Theorem C80_packets_lost_refuted : forall p more rest, sequence_flags (p_header p) = 3%N ->
  (exists t, pulls (ga_next (direct scripted)) (mkGather (script ([p] :: more :: rest)) None false) [mkGroup (apid (p_header p)) [p]] (EndsIn t) /\
     forall n, ga_next (direct scripted) n t = Some (Val (None, t))) /\
  (exists t, pulls (ga_next (direct scripted)) (mkGather (script ([] :: more :: rest)) None false) [] (EndsIn t) /\
     forall n, ga_next (direct scripted) n t = Some (Val (None, t))).
Proof.
  intros p more rest SF. split.
  - destruct (C80_sources packet ([p] :: more :: rest) ltac:(discriminate)) as [ST SI]. apply (C80_groups _ _ _ _ _ _ true ST SI). apply pg_stops.
    + apply grouping_standalone; [exact SF|constructor].
    + rewrite ends_open_cons by (right; exists p; auto). apply ends_open_nil.
  - destruct (C80_sources packet ([] :: more :: rest) ltac:(discriminate)) as [ST SI]. apply (C80_groups _ _ _ _ _ _ true ST SI). apply pg_stops; [constructor|apply ends_open_nil].
Qed.
Print Assumptions C80_packets_lost_refuted.
(* a pause in the middle of a group makes it two, and no end is reported *)
Theorem C80_group_split_refuted : forall p q, sequence_flags (p_header p) <> 3%N -> sequence_flags (p_header q) <> 3%N -> apid (p_header q) = apid (p_header p) ->
  let a := apid (p_header p) in
  hands (ga_next (direct scripted)) (mkGather (script [[p]; [q]]) None false) [mkGroup a [p]; mkGroup a [q]] (mkGather [] None false) /\
  hands (ga_next (direct scripted)) (mkGather (script [[p; q]]) None false) [mkGroup a [p; q]] (mkGather [] None false).
Proof.
  intros p q SP SQ A a.
  assert (G : forall p l, sequence_flags (p_header p) <> 3%N -> Forall (fun q => apid_of q = apid_of p) l ->
    grouping (p :: l) [mkGroup (apid_of p) (p :: l)] /\ ends_open [mkGroup (apid_of p) (p :: l)]).
  { intros x l H F. split.
    - replace (x :: l) with (x :: l ++ []) at 1 by (rewrite app_nil_r; reflexivity). apply grouping_run; [exact H|exact F|exact I|constructor].
    - exists [], (mkGroup (apid_of x) (x :: l)). split; [reflexivity|]. intros (y & E & Y). cbn [g_packets] in E. injection E as -> _. contradiction. }
  split.
  - destruct (C80_sources packet [[p]; [q]] ltac:(discriminate)) as [ST SI]. apply (C80_groups _ _ _ _ _ _ false ST SI).
    destruct (G p [] SP (Forall_nil _)) as [G1 G2]. destruct (G q [] SQ (Forall_nil _)) as [G3 G4]. unfold apid_of in G3, G4. rewrite A in G3, G4.
    apply (pg_goes_on [p] [[q]] _ [mkGroup a [q]] false G1 G2). apply (pg_goes_on [q] [] _ [] false G3 G4). constructor.
  - destruct (C80_sources packet [[p; q]] ltac:(discriminate)) as [ST SI]. apply (C80_groups _ _ _ _ _ _ false ST SI).
    destruct (G p [q] SP) as [G1 G2]; [constructor; [exact A|constructor]|]. apply (pg_goes_on [p; q] [] _ [] false G1 G2). constructor.
Qed.
Print Assumptions C80_group_split_refuted.

(* ---- concrete cases: a packet of three frames with pauses between them; CADUs with an unreadable one and a pause ---- *)
From Verif Require Import S_Packet S_FramePackets P_FramePackets.
Definition pause_parts : list (list frame) := [[nth 0 ex_fs (mkFrame (mkVcdu 1 1 1 1) 0 None [])]; []; tl ex_fs].
Example C80_ex_packets : steady (direct (@scripted frame)) /\ sittings (direct scripted) (script pause_parts) pause_parts (EndsIn []) /\
  yields (fpiter_next 1 2) (packet_decoder (concat pause_parts)) (map pk ex_ws) /\
  exists h, sittings (unpack_next 1 2 (direct scripted)) (unpack_new (script pause_parts))
    [[pk (ex_packet 5 3)]; []; [pk (ex_packet 6 5); pk (ex_packet 7 2)]] h.
Proof.
  destruct (C80_sources frame pause_parts ltac:(discriminate)) as [ST SI]. split; [exact ST|]. split; [exact SI|].
  split; [exact (proj1 (proj2 (proj2 C36_ex)))|]. eexists.
  assert (U := unpack_sittings 1 2 _ _ (steady_mono _ _ _ ST) _ _ _ SI []). vm_compute in U. exact U.
Qed.
Definition pause_cadu (b0 ctr : N) : block := mkBlock 0 (mkLoc 0 0) [b0; 3; 0; 0; ctr; 0; 1; 2]%N.
Definition pause_cadus : list (list block) := [[pause_cadu 64 4; pause_cadu 128 9; pause_cadu 64 5]; [pause_cadu 64 7]].
Example C80_ex_frames : sittings (direct scripted) (script pause_cadus) pause_cadus (EndsIn []) /\
  (exists out, yields (fdec_next true) (frame_decoder (concat (concat (map cut pause_cadus)))) out) /\
  exists outs h, sittings (decoding_next true (direct scripted)) (decoding_new (script pause_cadus)) outs h /\
    map (map f_missing) outs = [[0]; [0]; [1]]%N.
Proof.
  destruct (C80_sources block pause_cadus ltac:(discriminate)) as [ST SI]. split; [exact SI|]. split.
  - eexists. apply drun_yields; [apply cuts_long|]. split; [reflexivity|]. vm_compute. discriminate.
  - assert (U := decoding_sittings true _ _ _ _ SI []). exists (fst (over (drun true) [] (concat (map cut pause_cadus)))). eexists. split; [exact U|]. vm_compute. reflexivity.
Qed.
