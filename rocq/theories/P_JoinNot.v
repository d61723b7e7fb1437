(* Property C104, third part: what joining recordings changes *)
From Verif Require Import Base S_Bits M_Reader M_Packet M_Group S_Packet S_Group M_Timecode L_Base L_Bits L_Packet L_Group M_Merge S_Merge L_Merge
  M_Cli S_Cli M_Main S_Main P_Main S_Compose L_Compose P_Compose M_Frame M_FramePackets S_FramePackets L_FramePackets L_FramePackets2 S_Join P_Join.
Open Scope nat_scope.

(* ---- a group goes on across the seam ---- *)
(* Each recording is one group of segmented packets of the same apid: joined, they are one group with the time of the first packet, so
   that of the two recordings joined all is written or nothing, according to the time of the first *)
Theorem C104_group_across_refuted : forall creatable fs a b c w1 k1 w2 k2 x include exclude,
  ready creatable fs a -> ready creatable fs b -> ready creatable fs c -> filed (w1 :: k1) -> filed (w2 :: k2) ->
  aget (fa_input a) fs = Some (stream (w1 :: k1)) -> aget (fa_input b) fs = Some (stream (w2 :: k2)) ->
  aget (fa_input c) fs = Some (stream (w1 :: k1) ++ stream (w2 :: k2)) ->
  numbers a include exclude -> numbers b include exclude -> numbers c include exclude -> accepted include exclude x ->
  timed a -> fa_before b = fa_before a -> fa_after b = fa_after a -> fa_before c = fa_before a -> fa_after c = fa_after a ->
  Forall (fun w => apid (w_header w) = x) ((w1 :: k1) ++ (w2 :: k2)) -> sequence_flags (w_header w1) = 1%N -> sequence_flags (w_header w2) = 1%N ->
  let first w := mkGroup x [mkPacket (w_header w) (wire_bytes w) 0] in
  exists outa outb outc fsa fsb fsc,
    filter_command creatable fs a = Val (Success, fsa) /\ only_written fs (fa_output a) outa fsa /\
    filter_command creatable fs b = Val (Success, fsb) /\ only_written fs (fa_output b) outb fsb /\
    filter_command creatable fs c = Val (Success, fsc) /\ only_written fs (fa_output c) outc fsc /\
    (timely (fa_before a) (fa_after a) (first w1) -> ~ timely (fa_before a) (fa_after a) (first w2) ->
       outa = stream (w1 :: k1) /\ outb = [] /\ outc = stream (w1 :: k1) ++ stream (w2 :: k2)) /\
    (~ timely (fa_before a) (fa_after a) (first w1) -> timely (fa_before a) (fa_after a) (first w2) ->
       outa = [] /\ outb = stream (w2 :: k2) /\ outc = []).
Proof.
  intros creatable fs a b c w1 k1 w2 k2 x inc exc RA RB RC [W1 L1] [W2 L2] GA GB GC [NA1 NA2] [NB1 NB2] [NC1 NC2] AX TA EB EA' EC EC' ALL F1 F2 first.
  assert (ALL' := ALL). apply Forall_app in ALL'. destruct ALL' as [A1 A2].
  assert (ONE : forall d w k bs, ready creatable fs d -> Forall wire_ok (w :: k) -> Forall (fun w => N.of_nat (length (wire_bytes w)) <= 65536)%N (w :: k) ->
    aget (fa_input d) fs = Some bs -> bs = stream (w :: k) -> stands_for (fa_include d) inc -> stands_for (fa_exclude d) exc ->
    fa_before d = fa_before a -> fa_after d = fa_after a -> Forall (fun w => apid (w_header w) = x) (w :: k) -> sequence_flags (w_header w) = 1%N ->
    exists out fs', filter_command creatable fs d = Val (Success, fs') /\ only_written fs (fa_output d) out fs' /\
      (timely (fa_before a) (fa_after a) (first w) -> out = stream (w :: k)) /\ (~ timely (fa_before a) (fa_after a) (first w) -> out = [])).
  { intros d w k bs (MA & CA & NA) WO LO G -> I E EB0 EA0 AP FL.
    assert (TD : fa_before d <> None \/ fa_after d <> None) by (rewrite EB0, EA0; exact TA).
    assert (GR := run_grouping w k x FL AP).
    destruct (C56_filter_command_times creatable fs d _ (w :: k) _ inc exc MA CA NA G (wires_file _ WO LO) GR I E TD) as (kps & fs' & K & FC & OW).
    rewrite EB0, EA0 in K.
    assert (GB0 : group_bytes (mkGroup x (packets_at 0 (w :: k))) = stream (w :: k)) by (unfold group_bytes; cbn [g_packets]; rewrite packets_data; reflexivity).
    exists (concat (map group_bytes kps)), fs'. split; [exact FC|]. split; [exact OW|]. split; intro T.
    - assert (kps = [mkGroup x (packets_at 0 (w :: k))]) as ->.
      { eapply kept_det; [exact K|]. apply kept_all. constructor; [|constructor]. split; [|exact AX]. eapply timely_first with (rest := []); [| |exact T]; reflexivity. }
      cbn [map concat]. rewrite app_nil_r. exact GB0.
    - assert (kps = []) as ->; [|reflexivity].
      eapply kept_det; [exact K|]. apply kept_none. constructor; [|constructor]. intros [X _]. apply T. eapply timely_first with (rest' := []); [| |exact X]; reflexivity. }
  destruct (ONE a w1 k1 _ RA W1 L1 GA eq_refl NA1 NA2 eq_refl eq_refl A1 F1) as (oa & fsa & E1 & O1 & Y1 & N1).
  destruct (ONE b w2 k2 _ RB W2 L2 GB eq_refl NB1 NB2 EB EA' A2 F2) as (ob & fsb & E2 & O2 & Y2 & N2).
  destruct (ONE c w1 (k1 ++ w2 :: k2) _ RC ltac:(apply (proj2 (Forall_app _ (w1 :: k1) (w2 :: k2))); split; assumption)
    ltac:(apply (proj2 (Forall_app _ (w1 :: k1) (w2 :: k2))); split; assumption) GC ltac:(rewrite <- stream_app; reflexivity) NC1 NC2 EC EC' ALL F1) as (oc & fsc & E3 & O3 & Y3 & N3).
  exists oa, ob, oc, fsa, fsb, fsc. repeat (split; [assumption|]). split; intros T1 T2.
  - split; [auto|]. split; [auto|]. rewrite <- stream_app. auto.
  - auto.
Qed.
Print Assumptions C104_group_across_refuted.

(* ---- a packet goes on across the seam ---- *)
Lemma carve_behind : forall ws, Forall wire_ok ws -> Forall telemetry ws -> forall b ps r, carve b ps r -> carve (stream ws ++ b) (map pk ws ++ ps) r.
Proof.
  induction 1 as [|w ws W HW IH]; intros HT b ps r C; [exact C|]. inversion HT as [|? ? T HT']; subst.
  destruct (wire_bytes_props w W) as (PB & PL & PW & PH). assert (P7 := wb_len w W).
  rewrite stream_cons, <- app_assoc. cbn [map app]. set (tail := stream ws ++ b).
  assert (WL : wire_len (wire_bytes w ++ tail) = length (wire_bytes w)) by (rewrite wire_len_app by lia; congruence).
  replace (pk w) with (mkPacket (spec_header (wire_bytes w ++ tail)) (firstn (wire_len (wire_bytes w ++ tail)) (wire_bytes w ++ tail)) 0).
  2:{ rewrite WL, firstn_app_exact, spec_header_app by lia. rewrite PH. reflexivity. }
  apply carve_packet; [rewrite app_length; lia| |rewrite WL, app_length; lia|].
  - unfold tm_header. rewrite spec_header_app by lia. rewrite PH. exact T.
  - rewrite WL, skipn_app_exact. apply IH; assumption.
Qed.
(* The first recording ends inside a packet, and the frame counters happen to go on: the packet is completed with whatever the second
   recording's frame has *)
Theorem C104_packet_across_refuted : forall izone trailer ws w k f g post b more,
  Forall wire_ok (ws ++ [w]) -> Forall telemetry (ws ++ [w]) -> frames_ok izone trailer (f :: g :: post) ->
  Forall (fun h => chan h = chan f) (g :: post) ->
  ~ bad_frame f -> pointer_of izone trailer f = 0 -> payload_of izone trailer f = stream ws ++ firstn k (wire_bytes w) ->
  ~ bad_frame g -> f_missing g = 0%N -> payload_of izone trailer g = b ++ more -> 6 <= k -> b <> [] -> k + length b = length (wire_bytes w) ->
  exists qs, yields (fpiter_next izone trailer) (packet_decoder [f]) (map pk ws) /\
    yields (fpiter_next izone trailer) (packet_decoder (f :: g :: post)) (map pk ws ++ mkPacket (w_header w) (firstn k (wire_bytes w) ++ b) 0 :: qs).
Proof.
  intros izone trailer ws w k f g post b more HW HT OK CH NF PF LF NG MG PG K6 NB KL.
  assert (B0 : 0 < length b) by (destruct b; [congruence|cbn; lia]).
  apply Forall_app in HW, HT. destruct HW as [WS WW], HT as [TS TW].
  inversion WW as [|? ? W _]; subst. inversion TW as [|? ? T _]; subst.
  destruct (wire_bytes_props w W) as (PB & PL & PW & PH). assert (P7 := wb_len w W).
  set (c := firstn k (wire_bytes w)) in *. assert (LC : length c = k) by (unfold c; rewrite firstn_length; lia).
  assert (HC : forall t, spec_header (c ++ t) = w_header w) by (intro t; rewrite spec_header_app by lia; unfold c; rewrite spec_header_firstn by lia; exact PH).
  assert (WC : forall t, wire_len (c ++ t) = length (wire_bytes w)).
  { intro t. rewrite <- total_len_spec, HC, <- PH, total_len_spec. exact PW. }
  assert (TH : forall t, tm_header (c ++ t)) by (intro t; unfold tm_header; rewrite HC; exact T).
  clearbody c.
  assert (C1 : carve (payload_of izone trailer f) (map pk ws) (Some c)).
  { rewrite LF. replace (map pk ws) with (map pk ws ++ []) by apply app_nil_r. apply carve_behind; [exact WS|exact TS|].
    rewrite <- (app_nil_r c). apply carve_wait; [rewrite app_length; cbn [length]; lia|apply TH|rewrite WC, app_length; cbn [length]; lia]. }
  assert (V1 : vc_step izone trailer None f (map pk ws) (Some c)).
  { apply vc_start; [exact NF|left; reflexivity| |rewrite PF; exact C1]. unfold has_start. rewrite PF. reflexivity. }
  destruct (carve_total _ more (le_n _)) as (qs1 & st1 & C2).
  assert (V2 : vc_step izone trailer (Some c) g (mkPacket (w_header w) (c ++ b) 0 :: qs1) st1).
  { apply vc_continue; [exact NG|exact MG|]. rewrite PG, app_assoc.
    replace (mkPacket (w_header w) (c ++ b) 0) with (mkPacket (spec_header ((c ++ b) ++ more)) (firstn (wire_len ((c ++ b) ++ more)) ((c ++ b) ++ more)) 0).
    2:{ rewrite <- app_assoc, HC, WC, app_assoc, <- KL, <- LC, <- app_length, firstn_app_exact. reflexivity. }
    apply carve_packet; rewrite <- ?app_assoc; [rewrite app_length; lia|apply TH|rewrite WC, !app_length; lia|].
    rewrite WC, app_assoc, <- KL, <- LC, <- app_length, skipn_app_exact. exact C2. }
  destruct (vc_run_total izone trailer post st1) as (qs2 & st2 & R).
  assert (OF : frames_ok izone trailer [f]) by (inversion OK; subst; constructor; [assumption|constructor]).
  exists (qs1 ++ qs2). split.
  - apply single_iff with (v := chan f); [exact OF|repeat constructor|]. exists (Some c).
    rewrite <- (app_nil_r (map pk ws)). eapply vc_cons; [exact V1|constructor].
  - apply single_iff with (v := chan f); [exact OK|constructor; [reflexivity|exact CH]|]. exists st2.
    eapply vc_cons; [exact V1|]. change (?x :: qs1 ++ qs2) with ((x :: qs1) ++ qs2). eapply vc_cons; [exact V2|exact R].
Qed.
Print Assumptions C104_packet_across_refuted.
