(* Properties C08 - C12: sequence gaps, packet groups, summaries *)
From Verif Require Import Base M_Packet M_Group M_Summary S_Group L_Base L_Group.
Open Scope N_scope.

(* C08 *)
Theorem C08_missing_packets : forall ovf cur last, cur < 16384 -> last < 16384 ->
  missing_packets ovf cur last = Val (Z.to_N ((Z.of_N cur - Z.of_N last - 1) mod 16384)).
Proof. exact missing_packets_gap. Qed.
Print Assumptions C08_missing_packets.

Theorem C08_zero_iff_successor : forall ovf cur last, cur < 16384 -> last < 16384 ->
  (missing_packets ovf cur last = Val 0 <-> cur = (last + 1) mod 16384) /\
  missing_packets ovf cur cur = Val 16383.
Proof.
  intros ovf cur last Hc Hl. split.
  - rewrite missing_packets_gap by assumption. rewrite <- seq_gap_0 by assumption.
    split; [intro E; injection E; auto|intros ->; reflexivity].
  - rewrite missing_packets_gap by assumption. unfold seq_gap.
    replace (Z.of_N cur - Z.of_N cur - 1)%Z with (-1)%Z by lia. reflexivity.
Qed.
Print Assumptions C08_zero_iff_successor.

Example C08_ex : missing_packets true 2 16380 = Val 5 /\ missing_packets false 0 16383 = Val 0.
Proof. split; reflexivity. Qed.

(* C09 *)
Theorem C09_groups_partition : forall ps, exists gs,
  yields giter_next (giter_new ps) gs /\
  concat (map g_packets gs) = ps /\
  Forall (fun g => g_packets g <> [] /\ Forall (fun p => apid (p_header p) = g_apid g) (g_packets g)) gs.
Proof.
  intro ps. destruct (grouping_total ps) as [gs G]. exists gs. split; [apply groups_exact; exact G|].
  split; [apply grouping_concat; exact G|]. exact (grouping_wf ps gs G).
Qed.
Print Assumptions C09_groups_partition.

(* C10: the exact rule *)
Theorem C10_groups_exact : forall ps gs,
  yields giter_next (giter_new ps) gs <-> grouping ps gs.
Proof. exact groups_exact. Qed.
Print Assumptions C10_groups_exact.

(* two complete groups of one apid, back to back, become one group, and that group still answers that
   it is complete although it holds a LAST packet followed by a FIRST packet *)
Theorem C10_back_to_back_groups_refuted : forall ovf a f1 mid1 l1 f2 mid2 l2,
  let ps1 := f1 :: mid1 ++ [l1] in
  let ps2 := f2 :: mid2 ++ [l2] in
  Forall seq_ok (ps1 ++ ps2) -> Forall (fun p => apid_of p = a) (ps1 ++ ps2) ->
  complete ovf (mkGroup a ps1) = Val true -> complete ovf (mkGroup a ps2) = Val true ->
  seq f2 = (seq l1 + 1) mod 16384 ->
  yields giter_next (giter_new (ps1 ++ ps2)) [mkGroup a (ps1 ++ ps2)] /\
  complete ovf (mkGroup a (ps1 ++ ps2)) = Val true.
Proof.
  intros ovf a f1 mid1 l1 f2 mid2 l2 ps1 ps2 Hs Ha C1 C2 J.
  assert (Hs' := Hs). apply Forall_app in Hs'. destruct Hs' as [Hs1 Hs2].
  assert (K : forall f mid l, Forall seq_ok (f :: mid ++ [l]) -> complete ovf (mkGroup a (f :: mid ++ [l])) = Val true ->
     sequence_flags (p_header f) = 1 /\ sequence_flags (p_header l) = 2 /\ consecutive (f :: mid ++ [l])).
  { intros f mid l H C. destruct (complete_spec ovf (mkGroup a (f :: mid ++ [l])) H) as (b & E & S). cbn [g_packets] in S.
    assert (b = true) by congruence. apply S in H0. destruct H0 as [(p & E' & _)|(f' & m' & l' & E' & F & L & C')].
    - destruct mid; discriminate.
    - injection E' as <- E'. apply app_inj_tail in E'. destruct E' as [<- <-]. auto. }
  destruct (K _ _ _ Hs1 C1) as (F1 & L1 & S1). destruct (K _ _ _ Hs2 C2) as (F2 & L2 & S2).
  split.
  - apply groups_exact. unfold ps1. cbn [app].
    inversion Ha; subst. rewrite <- (app_nil_r ((mid1 ++ [l1]) ++ ps2)) at 1.
    apply grouping_run; [lia|assumption|exact I|constructor].
  - destruct (complete_spec ovf (mkGroup a (ps1 ++ ps2)) Hs) as (b & E & S). rewrite E. f_equal. apply S. right.
    exists f1, ((mid1 ++ [l1]) ++ f2 :: mid2), l2. cbn [g_packets]. unfold ps1, ps2. cbn [app]. rewrite <- !app_assoc. cbn [app].
    repeat split; auto. change (f1 :: mid1 ++ l1 :: f2 :: mid2 ++ [l2]) with ((f1 :: mid1) ++ [l1] ++ f2 :: mid2 ++ [l2]).
    rewrite app_assoc. apply consecutive_join; assumption.
Qed.
Print Assumptions C10_back_to_back_groups_refuted.

Definition ex_pkt (a flags sq : N) : packet := mkPacket (mkHeader 0 0 true a flags sq 0) [1;2;3;4;5;6;7] 0.
Example C10_ex : let ps1 := [ex_pkt 9 1 16382; ex_pkt 9 0 16383; ex_pkt 9 2 0] in
                 let ps2 := [ex_pkt 9 1 1; ex_pkt 9 2 2] in
  complete true (mkGroup 9 ps1) = Val true /\ complete true (mkGroup 9 ps2) = Val true /\
  seq (ex_pkt 9 1 1) = (seq (ex_pkt 9 2 0) + 1) mod 16384 /\
  fst (run giter_next 5 (giter_new (ps1 ++ ps2 ++ [ex_pkt 8 3 5; ex_pkt 8 3 6]))) =
    [mkGroup 9 (ps1 ++ ps2); mkGroup 8 [ex_pkt 8 3 5]; mkGroup 8 [ex_pkt 8 3 6]].
Proof. repeat split; reflexivity. Qed.

(* C11 *)
Theorem C11_have_missing : forall ovf g, g_packets g <> [] ->
  Forall (fun p => sequence_id (p_header p) < 16384) (g_packets g) ->
  exists b, have_missing ovf g = Val b /\
  (b = true <-> exists i p q, nth_error (g_packets g) i = Some p /\ nth_error (g_packets g) (S i) = Some q /\
                 sequence_id (p_header q) <> (sequence_id (p_header p) + 1) mod 16384).
Proof.
  intros ovf [a ps] Hne H. cbn [g_packets] in *. unfold have_missing. cbn [g_packets].
  rewrite slice_from_ok by (destruct ps; [congruence|cbn; lia]). cbn [obind]. clear Hne.
  induction ps as [|p ps IH].
  - exists false. split; [reflexivity|]. split; [discriminate|]. intros (i & p & q & E & _). destruct i; discriminate.
  - inversion H as [|? ? Hp Hps]; subst. destruct (IH Hps) as (b & E & Sb). clear IH.
    destruct ps as [|q ps].
    + exists false. split; [reflexivity|]. split; [discriminate|]. intros (i & p' & q & _ & E2 & _). destruct i; [discriminate|]. destruct i; discriminate.
    + cbn [skipn combine any_missing]. inversion Hps as [|? ? Hq _]; subst.
      rewrite missing_packets_gap by assumption. cbn [obind].
      assert (Z0 := seq_gap_0 _ _ Hq Hp). cbn [skipn combine] in E.
      destruct (0 <? seq_gap (sequence_id (p_header q)) (sequence_id (p_header p))) eqn:G.
      * exists true. split; [reflexivity|]. split; [|reflexivity]. intros _. exists 0%nat, p, q.
        repeat split. intro C. apply Z0 in C. lia.
      * exists b. split; [exact E|]. rewrite Sb. split.
        -- intros (i & x & y & E1 & E2 & N). exists (S i), x, y. auto.
        -- intros (i & x & y & E1 & E2 & N). destruct i; [|exists i, x, y; auto].
           exfalso. cbn in E1, E2. injection E1 as <-. injection E2 as <-. apply N, Z0. lia.
Qed.
Print Assumptions C11_have_missing.

Theorem C11_have_missing_empty : forall ovf a, have_missing ovf (mkGroup a []) = Panic.
Proof. reflexivity. Qed.

Theorem C11_complete : forall ovf g,
  Forall (fun p => sequence_id (p_header p) < 16384) (g_packets g) ->
  exists b, complete ovf g = Val b /\
  (b = true <->
    (exists p, g_packets g = [p] /\ sequence_flags (p_header p) = 3) \/
    (exists f mid l, g_packets g = f :: mid ++ [l] /\ sequence_flags (p_header f) = 1 /\
       sequence_flags (p_header l) = 2 /\
       forall i p q, nth_error (g_packets g) i = Some p -> nth_error (g_packets g) (S i) = Some q ->
         sequence_id (p_header q) = (sequence_id (p_header p) + 1) mod 16384)).
Proof. exact complete_spec. Qed.
Print Assumptions C11_complete.

Example C11_ex : have_missing true (mkGroup 9 [ex_pkt 9 1 16383; ex_pkt 9 0 1]) = Val true /\
  complete true (mkGroup 9 [ex_pkt 9 1 16383; ex_pkt 9 2 0]) = Val true /\
  complete true (mkGroup 9 [ex_pkt 9 1 16383; ex_pkt 9 2 1]) = Val false.
Proof. repeat split; reflexivity. Qed.

(* C12 *)
Theorem C12_summary_totals : forall ovf ps,
  Forall (fun p => sequence_id (p_header p) < 16384) ps ->
  exists s, summary_add_all ovf summary0 ps = Val s /\
  s_count s = N.of_nat (length ps) /\
  s_bytes s = bytes_of ps /\
  (forall a, aget a (s_apids s) =
     match of_apid a ps with
     | [] => None
     | l => Some {| as_count := N.of_nat (length l); as_bytes := bytes_of l; as_missing := gaps l |}
     end) /\
  NoDup (map fst (s_apids s)) /\
  s_missing s = fold_right N.add 0 (map (fun x => as_missing (snd x)) (s_apids s)).
Proof.
  intros ovf ps H. destruct (summary_all ovf ps [] summary0 H sum_inv0) as (s & E & I).
  exists s. split; [exact E|]. destruct I. repeat split; assumption.
Qed.
Print Assumptions C12_summary_totals.

Example C12_ex :
  summary_add_all true summary0 [ex_pkt 9 3 10; ex_pkt 8 3 2; ex_pkt 9 3 13; ex_pkt 8 3 1] =
  Val (mkSummary 4 28 16384 [(9, mkApidSummary 2 14 2); (8, mkApidSummary 2 14 16382)]
        [(9, mkHeader 0 0 true 9 3 13 0); (8, mkHeader 0 0 true 8 3 1 0)]).
Proof. reflexivity. Qed.
