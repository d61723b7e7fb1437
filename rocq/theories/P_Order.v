(* Property C101: the order of packets, files and options, where it does not matter and where it does *)
From Coq Require Import Permutation Sorted.
From Verif Require Import Base S_Bits M_Reader M_Packet M_Group S_Packet S_Group M_Timecode L_Base L_Packet L_Group M_Merge S_Merge L_Merge P_Merge
  M_Cli S_Cli P_CliFilter M_Main S_Main P_Main P_LiveCmd S_Compose L_Compose P_Compose S_Diff P_CliDiff S_InfoTotals P_CliDiff2 L_Info P_CliInfo S_Order.
Open Scope N_scope.

(* ---- merging ---- *)
(* The order of the paths and how often each is given do not matter *)
Theorem C101_merge_paths : forall h h' fs m A B ws, hash_ok h -> hash_ok h' -> same_members A B ->
  readable fs (on_paths m A) ws -> no_ties (on_paths m A) ws ->
  merge h' fs (on_paths m B) = merge h fs (on_paths m A).
Proof.
  intros h h' fs m A B ws H H' SM R NT. destruct (main_sorted h fs _ ws H R NT) as (sel & -> & EL & CA & ST).
  apply merge_unique with (ws := ws).
  - exact H'.
  - intros p I. apply R. apply SM. exact I.
  - intros g G. apply CA. revert G. apply eligible_on. intros p I. apply SM. exact I.
  - intros g I. rewrite Forall_forall in EL. exists g. split; [|reflexivity]. generalize (EL g I). apply eligible_on. intros p J. apply SM. exact J.
  - exact ST.
Qed.
Print Assumptions C101_merge_paths.

Lemma at_wire : forall ws off p, In p (packets_at off ws) -> exists w, In w ws /\ is_wire p w.
Proof. intros ws off p I. destruct (Forall2_in_l _ _ _ _ _ _ (packets_wires ws off) I) as (w & J & W). exists w. auto. Qed.
Lemma wire_at : forall ws off w, In w ws -> exists p, In p (packets_at off ws) /\ is_wire p w.
Proof. intros ws off w I. destruct (Forall2_in_r _ _ _ _ _ _ (packets_wires ws off) I) as (p & J & W). exists p. auto. Qed.
Lemma wires_same : forall p q w, is_wire p w -> is_wire q w -> same p q.
Proof. intros p q w [A B] [C D]. split; congruence. Qed.
Definition alone (p : packet) : pgroup := mkGroup (apid_of p) [p].
Lemma alone_packets : forall ps, concat (map g_packets (map alone ps)) = ps.
Proof. induction ps as [|p ps IH]; [reflexivity|]. cbn [map concat g_packets alone app]. rewrite IH. reflexivity. Qed.
Lemma alone_grouping : forall ps, Forall (fun p => sequence_flags (p_header p) = 3) ps -> grouping ps (map alone ps).
Proof.
  intros ps F. rewrite <- (alone_packets ps) at 1. apply standalone_grouping. apply Forall_map. eapply Forall_impl; [|exact F].
  intros p E. exists p. split; [reflexivity|exact E].
Qed.
Lemma eligible_alone : forall m ws g, all_standalone (mg_paths m) ws ->
  (eligible m ws g <-> exists p k, In p (mg_paths m) /\ In k (packets_at 0 (ws p)) /\ g = alone k /\ fit m k).
Proof.
  intros m ws g SA.
  assert (FL : forall p, In p (mg_paths m) -> Forall (fun k => sequence_flags (p_header k) = 3) (packets_at 0 (ws p))).
  { intros p I. apply packets_at_flags. apply Forall_forall. intros w J. exact (SA p w I J). }
  rewrite eligible_fit. split.
  - intros (p & gs & f & rest & I & G & IG & E & FT). rewrite (grouping_det _ _ _ G (alone_grouping _ (FL p I))) in IG.
    apply in_map_iff in IG. destruct IG as (k & <- & J). cbn in E. injection E as <- <-. exists p, k. auto.
  - intros (p & k & I & J & -> & FT). exists p, (map alone (packets_at 0 (ws p))), k, []. split; [exact I|]. split; [apply alone_grouping; apply FL; exact I|].
    split; [apply in_map; exact J|]. split; [reflexivity|exact FT].
Qed.
Lemma moved : forall m A B ws ws' g, place_free (mg_time m) -> all_standalone A ws -> all_standalone B ws' ->
  (forall w, packet_in A ws w -> packet_in B ws' w) -> eligible (on_paths m A) ws g ->
  exists g', eligible (on_paths m B) ws' g' /\ same_group g g'.
Proof.
  intros m A B ws ws' g PF SA SB X G. apply eligible_alone in G; [|exact SA]. destruct G as (p & k & I & J & -> & FT).
  destruct (at_wire _ _ _ J) as (w & Iw & W). destruct (X w) as (q & Iq & Jq); [exists p; auto|]. destruct (wire_at _ 0%nat _ Jq) as (k' & J' & W').
  assert (S' := wires_same _ _ _ W W'). exists (alone k'). split.
  - apply eligible_alone; [exact SB|]. exists q, k'. split; [exact Iq|]. split; [exact J'|]. split; [reflexivity|]. apply fit_on. eapply same_fit; [exact PF|exact S'|exact FT].
  - split; [apply same_apid; exact S'|]. constructor; [exact S'|constructor].
Qed.
(* When all packets are standalone, how they are divided among the files, in which order they are and how often each is
   there do not matter *)
Theorem C101_merge_distribution : forall h h' fs fs' m A B ws ws', hash_ok h -> hash_ok h' ->
  readable fs (on_paths m A) ws -> readable fs' (on_paths m B) ws' -> place_free (mg_time m) -> no_ties (on_paths m A) ws ->
  all_standalone A ws -> all_standalone B ws' -> (forall w, packet_in A ws w <-> packet_in B ws' w) ->
  merge h' fs' (on_paths m B) = merge h fs (on_paths m A).
Proof.
  intros h h' fs fs' m A B ws ws' H H' R R' PF NT SA SB X. destruct (main_sorted h fs _ ws H R NT) as (sel & -> & EL & CA & ST).
  apply merge_unique with (ws := ws').
  - exact H'.
  - exact R'.
  - intros g G. destruct (moved m B A ws' ws g PF SB SA) as (g' & G' & SG); [intro w; apply X|exact G|].
    destruct (CA g' G') as (g0 & I & K & E). exists g0. split; [exact I|]. rewrite !gkey_on in *. rewrite (same_gkey m _ _ PF SG), (same_group_bytes1 _ _ SG). auto.
  - intros g I. rewrite Forall_forall in EL. destruct (moved m A B ws ws' g PF SA SB) as (g' & G' & SG); [intro w; apply X|exact (EL g I)|].
    exists g'. split; [exact G'|]. rewrite !gkey_on. rewrite (same_gkey m _ _ PF SG). reflexivity.
  - exact ST.
Qed.
Print Assumptions C101_merge_distribution.
(* With segmented packets, not: packets of one apid that follow one another in a file make one group, of which only the
   first packet's time counts; in two files they are two *)
Definition od_one : list wire_packet := [mg_wire 900 1 9 21999 [3]; mg_wire 900 2 10 21999 [4]].
Definition od_two : list wire_packet := [mg_wire 900 1 11 22001 [5]; mg_wire 900 2 12 22001 [6]].
Definition od_mid : list wire_packet := [mg_wire 821 3 7 22000 [1]].
Definition od_ws (p : N) : list wire_packet := if p =? 0 then od_one else if p =? 1 then od_two else od_mid.
Definition od_ws' (p : N) : list wire_packet := if p =? 0 then od_one ++ od_two else od_mid.
Definition od_fs (ws : N -> list wire_packet) (p : N) : option (list N) := Some (concat (map wire_bytes (ws p))).
Lemma od_readable : forall m, readable (od_fs od_ws) m od_ws /\ readable (od_fs od_ws') m od_ws'.
Proof.
  intro m. split; intros p _; eexists; (split; [reflexivity|]); unfold od_ws, od_ws'; destruct (p =? 0); try destruct (p =? 1);
    (apply wires_file; [repeat constructor|repeat constructor; vm_compute; discriminate]).
Qed.
Lemma od_ties : forall ws, ws = od_ws \/ ws = od_ws' -> forall paths, no_ties (on_paths st_m paths) ws.
Proof.
  intros ws WS paths.
  assert (K : forall p gs, grouping (packets_at 0 (ws p)) gs -> gs = fst (run giter_next 9%nat (giter_new (packets_at 0 (ws p))))).
  { intros p gs G. apply groups_exact in G. eapply yields_det; [exact G|]. apply run_yields with (fuel := 9%nat).
    destruct WS as [->| ->]; [unfold od_ws|unfold od_ws']; destruct (p =? 0); try destruct (p =? 1); vm_compute; reflexivity. }
  intros g g' t a s a' s' (p & gs & f & r & t0 & _ & G & I & _) (p' & gs' & f' & r' & t0' & _ & G' & I' & _) KG KG' O.
  apply K in G, G'. subst gs gs'. rewrite gkey_on in KG, KG'.
  destruct WS as [->| ->].
  - unfold od_ws in I, I'. destruct (p =? 0), (p' =? 0); try destruct (p =? 1); try destruct (p' =? 1);
      destruct I as [<-|[]]; destruct I' as [<-|[]]; vm_compute in KG, KG'; injection KG as <- <- <-; injection KG'; intros; subst; try discriminate; (split; [reflexivity|split; [reflexivity|vm_compute; reflexivity]]).
  - unfold od_ws' in I, I'. destruct (p =? 0), (p' =? 0);
      destruct I as [<-|[]]; destruct I' as [<-|[]]; vm_compute in KG, KG'; injection KG as <- <- <-; injection KG'; intros; subst; try discriminate; (split; [reflexivity|split; [reflexivity|vm_compute; reflexivity]]).
Qed.
Theorem C101_merge_distribution_refuted : exists fs fs' m A B ws ws' one mid two,
  readable fs (on_paths m A) ws /\ readable fs' (on_paths m B) ws' /\ place_free (mg_time m) /\
  no_ties (on_paths m A) ws /\ no_ties (on_paths m B) ws' /\ (forall w, packet_in A ws w <-> packet_in B ws' w) /\
  (forall h, hash_ok h -> merge h fs (on_paths m A) = Val (Ok (one ++ mid ++ two))) /\
  (forall h, hash_ok h -> merge h fs' (on_paths m B) = Val (Ok (one ++ two ++ mid))) /\ mid ++ two <> two ++ mid.
Proof.
  exists (od_fs od_ws), (od_fs od_ws'), st_m, [0; 1; 2], [0; 2], od_ws, od_ws',
    (concat (map wire_bytes od_one)), (concat (map wire_bytes od_mid)), (concat (map wire_bytes od_two)).
  split; [apply od_readable|]. split; [apply od_readable|]. split; [exact cds_place_free|].
  split; [apply od_ties; left; reflexivity|]. split; [apply od_ties; right; reflexivity|].
  split; [|split; [|split]].
  - intro w. split.
    + intros (p & [<-|[<-|[<-|[]]]] & I).
      * exists 0. split; [left; reflexivity|]. change (In w (od_one ++ od_two)). apply in_app_iff. left. exact I.
      * exists 0. split; [left; reflexivity|]. change (In w (od_one ++ od_two)). apply in_app_iff. right. exact I.
      * exists 2. split; [right; left; reflexivity|exact I].
    + intros (p & [<-|[<-|[]]] & I).
      * change (In w (od_one ++ od_two)) in I. apply in_app_iff in I. destruct I as [I|I]; [exists 0|exists 1]; (split; [|exact I]); [left|right; left]; reflexivity.
      * exists 2. split; [right; right; left; reflexivity|exact I].
  - intros h H. rewrite (C101_merge_paths in_order h (od_fs od_ws) st_m [0; 1; 2] [0; 1; 2] od_ws in_order_ok H); [vm_compute; reflexivity|intro; reflexivity|apply od_readable|apply od_ties; left; reflexivity].
  - intros h H. rewrite (C101_merge_paths in_order h (od_fs od_ws') st_m [0; 2] [0; 2] od_ws' in_order_ok H); [vm_compute; reflexivity|intro; reflexivity|apply od_readable|apply od_ties; right; reflexivity].
  - vm_compute. discriminate.
Qed.
Print Assumptions C101_merge_distribution_refuted.

Lemma mem_same : forall (l l' : list N) a, same_members l l' -> mem a l = mem a l'.
Proof. intros l l' a SM. unfold mem. apply eq_true_iff_eq. rewrite !existsb_exists. split; intros (x & I & E); exists x; (split; [apply SM; exact I|exact E]). Qed.
Lemma nil_same : forall (l l' : list N), same_members l l' -> is_nil l = is_nil l'.
Proof. intros [|x l] [|y l'] SM; try reflexivity; exfalso; [apply (proj2 (SM y))|apply (proj1 (SM x))]; left; reflexivity. Qed.
(* The order of the apids to keep and how often each is given do not matter *)
Lemma ptr_apids : forall m l l' p g, same_members l l' -> group_ptr (with_apids m l) p g = group_ptr (with_apids m l') p g.
Proof.
  intros m l l' p g SM. unfold group_ptr. destruct (g_packets g) as [|f rest]; [reflexivity|]. change (mg_time (with_apids m l)) with (mg_time m). change (mg_time (with_apids m l')) with (mg_time m).
  destruct (negb (is_first f || is_standalone f)); [reflexivity|]. destruct (mg_time m f); [|reflexivity].
  change (from_nanos (with_apids m l)) with (from_nanos m). change (from_nanos (with_apids m l')) with (from_nanos m).
  change (to_nanos (with_apids m l)) with (to_nanos m). change (to_nanos (with_apids m l')) with (to_nanos m).
  destruct (_ <? _)%Z; [reflexivity|]. destruct (_ <=? _)%Z; [reflexivity|]. cbv zeta.
  change (apid_set (with_apids m l)) with l. change (apid_set (with_apids m l')) with l'.
  replace (match l with [] => true | _ :: _ => false end) with (match l' with [] => true | _ :: _ => false end).
  2:{ destruct l as [|x l], l' as [|y l']; try reflexivity; exfalso; [apply (proj2 (SM y))|apply (proj1 (SM x))]; left; reflexivity. }
  replace (existsb (N.eqb (apid (p_header f))) l) with (existsb (N.eqb (apid (p_header f))) l'); [reflexivity|].
  apply eq_true_iff_eq. rewrite !existsb_exists. split; intros (x & I & E); exists x; (split; [apply SM; exact I|exact E]).
Qed.
Theorem C101_merge_apids : forall h fs m l l', same_members l l' -> merge h fs (with_apids m l) = merge h fs (with_apids m l').
Proof.
  intros h fs m l l' SM. unfold merge. change (mg_paths (with_apids m l)) with (mg_paths m). change (mg_paths (with_apids m l')) with (mg_paths m).
  destruct (open_readers fs (mg_paths m) []) as [readers|e]; [|reflexivity].
  assert (F : forall p bs, file_pointers (with_apids m l) p bs = file_pointers (with_apids m l') p bs).
  { intros p bs. unfold file_pointers. destruct (file_packets bs) as [ps|]; [|reflexivity]. cbn [obind]. destruct (file_groups ps) as [gs|]; [|reflexivity]. cbn [obind].
    do 2 f_equal. induction gs as [|g gs IH]; [reflexivity|]. cbn [filter_map_opt]. rewrite (ptr_apids m l l' p g SM), IH. reflexivity. }
  assert (B : forall rs index, build_index (with_apids m l) rs index = build_index (with_apids m l') rs index).
  { induction rs as [|[p bs] rs IH]; intro index; [reflexivity|]. cbn [build_index]. rewrite F. destruct (file_pointers (with_apids m l') p bs); [|reflexivity]. cbn [obind]. apply IH. }
  rewrite B. reflexivity.
Qed.
Print Assumptions C101_merge_apids.

(* ... so that the merge command does the same for the same inputs and apids *)
Theorem C101_merge_command : forall h h' creatable fs a b order ws, hash_ok h -> hash_ok h' ->
  may_write fs (ma_clobber a) (ma_output a) -> creatable (ma_output a) = true -> ma_inputs a <> [] -> asks_order a order ->
  (forall p, In p (ma_inputs a) -> p = ma_output a /\ ws p = [] \/ p <> ma_output a /\ exists bs, aget p fs = Some bs /\ file_holds bs (ws p)) ->
  no_ties (with_apid_order
    (mkMerger (ma_inputs a) cds_time [] (option_map to_micros (ma_from a)) (option_map to_micros (ma_to a)) (Some (ma_apids a))) order) ws ->
  same_members (ma_inputs a) (ma_inputs b) -> same_members (ma_apids a) (ma_apids b) ->
  ma_apid_order b = ma_apid_order a -> ma_apid_order_name b = ma_apid_order_name a -> ma_from b = ma_from a -> ma_to b = ma_to a ->
  ma_clobber b = ma_clobber a -> ma_output b = ma_output a ->
  merge_command h' creatable fs b = merge_command h creatable fs a.
Proof.
  intros h h' creatable fs a b order ws H H' MW CR NI AO HR NT SI SA E1 E2 E3 E4 E5 E6.
  set (m := with_apid_order (mkMerger (ma_inputs a) cds_time [] (option_map to_micros (ma_from a)) (option_map to_micros (ma_to a)) (Some (ma_apids a))) order) in *.
  set (fs1 := aset (ma_output a) [] fs).
  assert (M : merger_of_args a order = m).
  { unfold m, merger_of_args, merger_new, with_apids, with_apid_order. destruct (ma_from a), (ma_to a); reflexivity. }
  assert (MB : merger_of_args b order = with_apids (on_paths m (ma_inputs b)) (ma_apids b)).
  { unfold m, merger_of_args, merger_new, with_apids, with_apid_order. rewrite E3, E4. destruct (ma_from a), (ma_to a); reflexivity. }
  assert (R : readable (fun p => aget p fs1) (on_paths m (ma_inputs a)) ws).
  { intros p I. cbn [mg_paths on_paths] in I. destruct (HR p I) as [[-> E]|(N & bs & E & F)]; unfold fs1.
    - exists []. rewrite aget_aset_eq, E. split; [reflexivity|]. split; [constructor|]. split; [constructor|]. exists []. split; [reflexivity|].
      split; [constructor|]. split; [apply incomplete_nil|cbn; lia].
    - exists bs. rewrite aget_aset_neq by exact N. auto. }
  assert (EQ := C101_merge_paths h h' (fun p => aget p fs1) m (ma_inputs a) (ma_inputs b) ws H H' SI R NT).
  assert (EB : merge h' (fun p => aget p fs1) (merger_of_args b order) = merge h (fun p => aget p fs1) m).
  { rewrite MB, (C101_merge_apids h' (fun p => aget p fs1) (on_paths m (ma_inputs b)) (ma_apids b) (ma_apids a)) by (intro; symmetry; apply SA). exact EQ. }
  destruct (main_sorted h (fun p => aget p fs1) _ ws H R NT) as (sel & E & _). change (on_paths m (ma_inputs a)) with m in E.
  unfold merge_command. rewrite E1, E2, E5, E6, (clobber_check _ _ _ MW), (asks_order_eq a order AO), CR. cbn [negb].
  assert (NB : is_nil (ma_inputs b) = false). { rewrite <- (nil_same _ _ SI). destruct (ma_inputs a); [contradiction|reflexivity]. }
  assert (NA : is_nil (ma_inputs a) = false) by (destruct (ma_inputs a); [contradiction|reflexivity]).
  rewrite NA, NB. fold fs1. rewrite EB, M, E. cbn [obind]. rewrite (merge_written_ok _ _ _ _ E). rewrite E in EB. rewrite (merge_written_ok _ _ _ _ EB). reflexivity.
Qed.
Print Assumptions C101_merge_command.

(* ---- diff ---- *)
Lemma strict_same : forall A (R : A -> A -> Prop), (forall x y, R x y -> R y x -> False) ->
  forall l l', StronglySorted R l -> StronglySorted R l' -> same_members l l' -> l = l'.
Proof.
  intros A R AS. induction l as [|x l IH]; intros l' SL SL' SM.
  - destruct l' as [|y l']; [reflexivity|]. destruct (proj2 (SM y)). left. reflexivity.
  - destruct l' as [|y l']; [destruct (proj1 (SM x)); left; reflexivity|]. inversion SL as [|? ? S1 F1]; inversion SL' as [|? ? S2 F2]; subst.
    rewrite Forall_forall in F1, F2. assert (x = y) as ->.
    { destruct (proj1 (SM x) (or_introl eq_refl)) as [->|I]; [reflexivity|]. destruct (proj2 (SM y) (or_introl eq_refl)) as [->|J]; [reflexivity|].
      destruct (AS x y); [apply F1; exact J|apply F2; exact I]. }
    f_equal. apply IH; [exact S1|exact S2|]. intro z. split; intro I.
    + destruct (proj1 (SM z) (or_intror I)) as [->|J]; [|exact J]. destruct (AS z z); apply F1; exact I.
    + destruct (proj2 (SM z) (or_intror I)) as [->|J]; [|exact J]. destruct (AS z z); apply F2; exact I.
Qed.
Lemma upto_antisym : forall a b, key_upto a b -> key_upto b a -> a = b.
Proof. intros a b [A| ->] [B|E]; auto. destruct (klt_irrefl a). eapply klt_trans; eassumption. Qed.
Lemma sorted_perm : forall l l', StronglySorted key_upto l -> StronglySorted key_upto l' -> Permutation l l' -> l = l'.
Proof.
  induction l as [|x l IH]; intros l' S1 S2 P.
  - apply Permutation_nil in P. congruence.
  - destruct l' as [|y l']; [apply Permutation_sym, Permutation_nil in P; discriminate|]. inversion S1 as [|? ? T1 F1]; inversion S2 as [|? ? T2 F2]; subst. rewrite Forall_forall in F1, F2.
    assert (x = y) as ->.
    { assert (I : In x (y :: l')) by (eapply Permutation_in; [exact P|left; reflexivity]). assert (J : In y (x :: l)) by (eapply Permutation_in; [apply Permutation_sym; exact P|left; reflexivity]).
      destruct I as [->|I]; [reflexivity|]. destruct J as [->|J]; [reflexivity|]. apply upto_antisym; [apply F1; exact J|apply F2; exact I]. }
    f_equal. apply IH; [exact T1|exact T2|]. eapply Permutation_cons_inv. exact P.
Qed.
Lemma sort_same : forall l l', Permutation l l' -> key_sort l = key_sort l'.
Proof.
  intros l l' P. apply sorted_perm; [apply ksort_sorted|apply ksort_sorted|]. eapply Permutation_trans; [apply Permutation_sym; apply ksort_perm|].
  eapply Permutation_trans; [exact P|apply ksort_perm].
Qed.
Lemma fst_sorted : forall V (l : amap V), StronglySorted N.lt (map fst l) -> StronglySorted (fun x y => fst x < fst y) l.
Proof.
  induction l as [|x l IH]; intro H; [constructor|]. inversion H as [|? ? S1 F]; subst. constructor; [apply IH; exact S1|].
  apply Forall_forall. intros y I. rewrite Forall_forall in F. apply F. apply in_map. exact I.
Qed.
Lemma counts_same : forall pl pr pl' pr' c c', counts_table pl pr c -> counts_table pl' pr' c' ->
  (forall a, nr_apid a pl = nr_apid a pl') -> (forall a, nr_apid a pr = nr_apid a pr') -> c = c'.
Proof.
  intros pl pr pl' pr' c c' [S1 H1] [S2 H2] L R. apply (strict_same _ (fun x y => fst x < fst y)).
  - intros x y A B. lia.
  - apply fst_sorted. exact S1.
  - apply fst_sorted. exact S2.
  - intros [a [nl nr]]. rewrite H1, H2, L, R. reflexivity.
Qed.
Lemma nr_wires : forall a ws off, nr_apid a (packets_at off ws) = N.of_nat (length (of_apid_wires a ws)).
Proof.
  intros a ws. unfold nr_apid, of_apid_wires. induction ws as [|w ws IH]; intro off; [reflexivity|]. cbn [packets_at filter p_header].
  destruct (apid (w_header w) =? a); cbn [length]; specialize (IH (off + length (wire_bytes w))%nat); lia.
Qed.
Lemma filter_perm : forall A (f : A -> bool) l l', Permutation l l' -> Permutation (filter f l) (filter f l').
Proof.
  intros A f l l' P. induction P as [|x l l' P IH|x y l|l l' l'' P1 IH1 P2 IH2]; cbn [filter].
  - constructor.
  - destruct (f x); [constructor|]; exact IH.
  - destruct (f x), (f y); try reflexivity. constructor.
  - eapply Permutation_trans; eassumption.
Qed.
Lemma nr_perm : forall a ws ws', Permutation ws ws' -> nr_apid a (packets_at 0 ws) = nr_apid a (packets_at 0 ws').
Proof. intros a ws ws' P. rewrite !nr_wires. f_equal. apply Permutation_length. apply filter_perm. exact P. Qed.
(* The order of the packets in the two files does not matter *)
Theorem C101_diff_order : forall csum fs verbose left right left' right' bl br bl' br' wl wr wl' wr',
  aget left fs = Some bl -> aget right fs = Some br -> file_holds bl wl -> file_holds br wr ->
  aget left' fs = Some bl' -> aget right' fs = Some br' -> file_holds bl' wl' -> file_holds br' wr' ->
  Permutation wl wl' -> Permutation wr wr' ->
  diff_command csum fs verbose left right = diff_command csum fs verbose left' right'.
Proof.
  intros csum fs verbose left right left' right' bl br bl' br' wl wr wl' wr' GL GR FL FR GL' GR' FL' FR' PL PR.
  unfold diff_command. rewrite GL, GR, GL', GR', (file_items_ok _ _ FL), (file_items_ok _ _ FR), (file_items_ok _ _ FL'), (file_items_ok _ _ FR'). cbn [obind].
  unfold diff_output, diff_cmd. rewrite !keep_ok_map, !diff_keys_ok. cbn [obind].
  assert (NL : forall f : wire_packet -> key, forall a b, Permutation a b -> is_nil (map f a) = is_nil (map f b)).
  { intros f a b P. apply Permutation_length in P. destruct a, b; try discriminate; reflexivity. }
  rewrite (NL _ _ _ PL), (NL _ _ _ PR), (sort_same _ _ (Permutation_map (wkey csum) PL)), (sort_same _ _ (Permutation_map (wkey csum) PR)).
  replace (diff_counts (packets_at 0 wl) (packets_at 0 wr)) with (diff_counts (packets_at 0 wl') (packets_at 0 wr')); [reflexivity|].
  apply (counts_same _ _ _ _ _ _ (diff_counts_ok _ _) (diff_counts_ok _ _)); intro a; symmetry; apply nr_perm; assumption.
Qed.
Print Assumptions C101_diff_order.

Lemma cmp_swap : forall a b, key_cmp b a = CompOpp (key_cmp a b).
Proof.
  intros [[a1 a2] a3] [[b1 b2] b3]. cbn [key_cmp]. rewrite (N.compare_antisym a1 b1), (N.compare_antisym a2 b2), (N.compare_antisym a3 b3).
  destruct (a1 ?= b1), (a2 ?= b2); reflexivity.
Qed.
Definition flip_row (r : bool * key) : bool * key := (negb (fst r), snd r).
Lemma rows_swap : forall fuel cl l cr r, (cl = None -> l = []) -> (cr = None -> r = []) ->
  diff_rows fuel cr r cl l = option_map (map flip_row) (diff_rows fuel cl l cr r).
Proof.
  assert (HD : forall l : list key, hd_error l = None -> tl l = []) by (intros [|x l]; [reflexivity|discriminate]).
  assert (OM : forall (x : bool * key) (o : option (list (bool * key))), option_map (map flip_row) (option_map (cons x) o) = option_map (cons (flip_row x)) (option_map (map flip_row) o)) by (intros x [o|]; reflexivity).
  assert (MP : forall b (l : list key), map flip_row (map (pair b) l) = map (pair (negb b)) l) by (intros b l; rewrite map_map; reflexivity).
  induction fuel as [|fuel IH]; intros cl l cr r HL HR; [reflexivity|]. cbn [diff_rows].
  destruct cl as [kl|], cr as [kr|]; cbn [option_map]; try (rewrite MP; reflexivity).
  - rewrite (cmp_swap kl kr). destruct (key_cmp kl kr); cbn [CompOpp]; rewrite ?OM.
    + apply IH; apply HD.
    + rewrite IH; [reflexivity|apply HD|discriminate].
    + rewrite IH; [reflexivity|discriminate|apply HD].
  - rewrite (HL eq_refl), (HR eq_refl). reflexivity.
Qed.
Lemma loop_swap : forall fuel cl l cr r n, (cl = None -> l = []) -> (cr = None -> r = []) ->
  diff_loop fuel cr r cl l n = diff_loop fuel cl l cr r n.
Proof.
  assert (HD : forall l : list key, hd_error l = None -> tl l = []) by (intros [|x l]; [reflexivity|discriminate]).
  induction fuel as [|fuel IH]; intros cl l cr r n HL HR; [reflexivity|]. cbn [diff_loop].
  destruct cl as [kl|], cr as [kr|]; try reflexivity.
  - rewrite (cmp_swap kl kr). destruct (key_cmp kl kr); cbn [CompOpp]; apply IH; try apply HD; discriminate.
  - rewrite (HL eq_refl), (HR eq_refl). reflexivity.
Qed.
Definition flip_count (c : N * (N * N)) : N * (N * N) := (fst c, (snd (snd c), fst (snd c))).
Lemma counts_swap : forall pl pr, diff_counts pr pl = map flip_count (diff_counts pl pr).
Proof.
  intros pl pr. destruct (diff_counts_ok pl pr) as [S1 H1]. destruct (diff_counts_ok pr pl) as [S2 H2].
  apply (strict_same _ (fun x y => fst x < fst y)).
  - intros x y A B. lia.
  - apply fst_sorted. exact S2.
  - apply fst_sorted. rewrite map_map. cbn [flip_count fst]. exact S1.
  - intros [a [nl nr]]. rewrite H2, in_map_iff. split.
    + intros (A & B & C). exists (a, (nr, nl)). split; [reflexivity|]. apply H1. auto.
    + intros ([b [x y]] & E & I). unfold flip_count in E. cbn [fst snd] in E. injection E as -> -> ->. apply H1 in I. destruct I as (A & B & C). auto.
Qed.
(* Left and right exchanged: the same result, and the same table with its columns exchanged *)
Theorem C101_diff_swap : forall csum fs verbose left right bl br wl wr,
  aget left fs = Some bl -> aget right fs = Some br -> file_holds bl wl -> file_holds br wr ->
  exists printed result, diff_command csum fs verbose left right = Val (Some (printed, result)) /\
    diff_command csum fs verbose right left = Val (Some (option_map mirrored printed, result)).
Proof.
  intros csum fs verbose left right bl br wl wr GL GR FL FR. unfold diff_command. rewrite GL, GR, (file_items_ok _ _ FL), (file_items_ok _ _ FR). cbn [obind].
  unfold diff_output, diff_cmd. rewrite !keep_ok_map, !diff_keys_ok. cbn [obind]. rewrite (andb_comm (is_nil (map (wkey csum) wr))).
  destruct (is_nil (map (wkey csum) wl) && is_nil (map (wkey csum) wr)); [do 2 eexists; split; reflexivity|].
  set (l := key_sort (map (wkey csum) wl)). set (r := key_sort (map (wkey csum) wr)).
  assert (HD : forall l : list key, hd_error l = None -> tl l = []) by (intros [|x k]; [reflexivity|discriminate]).
  rewrite (Nat.add_comm (length r)), (rows_swap _ (hd_error l) (tl l) (hd_error r) (tl r)), (loop_swap _ (hd_error l) (tl l) (hd_error r) (tl r)) by apply HD.
  destruct (rows_loop (S (length l + length r)) l r 0) as (rows & E1 & E2 & _); try apply ksort_sorted; [lia|]. rewrite E1, E2. cbn [option_map obind].
  rewrite (counts_swap (packets_at 0 wl)).
  destruct (0 + N.of_nat (length rows)); cbn [obind]; (do 2 eexists; split; [reflexivity|]); destruct verbose; reflexivity.
Qed.
Print Assumptions C101_diff_swap.

(* ---- filter ---- *)
Lemma u16s_same : forall l l' : list N, same_apids l l' -> same_members (to_u16s l) (to_u16s l').
Proof. intros l l' SA x. unfold to_u16s. rewrite !filter_In, N.ltb_lt. split; intros [I L]; (split; [apply (SA x L); exact I|exact L]). Qed.
(* How the apids are written (as numbers or ranges, in which order, how often, and anything too great for an apid) does
   not matter *)
Theorem C101_filter_numbers : forall creatable fs a b ia ea ib eb,
  numbers a ia ea -> numbers b ib eb -> same_apids ia ib -> same_apids ea eb ->
  fa_before a = fa_before b -> fa_after a = fa_after b -> fa_clobber a = fa_clobber b -> fa_output a = fa_output b -> fa_input a = fa_input b ->
  filter_command creatable fs a = filter_command creatable fs b.
Proof.
  intros creatable fs [i1 e1 b1 a1 c1 o1 p1] [i2 e2 b2 a2 c2 o2 p2] ia ea ib eb [NI NE] [NI' NE'] SI SE.
  cbn [fa_include fa_exclude fa_before fa_after fa_clobber fa_output fa_input] in *. intros <- <- <- <- <-.
  apply C50_parse_number_ranges in NI, NE, NI', NE'. unfold filter_command. cbn [fa_include fa_exclude fa_before fa_after fa_clobber fa_output fa_input].
  assert (FM : forall items, filter_main items i1 e1 b1 a1 = filter_main items i2 e2 b1 a1).
  { intro items. unfold filter_main. rewrite NI, NE, NI', NE'. apply u16s_same in SI, SE. rewrite (nil_same _ _ SI), (nil_same _ _ SE).
    destruct (_ && _); [reflexivity|]. destruct items as [items|]; [|reflexivity]. cbn [obind]. unfold filter_cmd. rewrite (nil_same _ _ SI), (nil_same _ _ SE).
    destruct (_ && _); [reflexivity|]. match goal with |- obind ?x _ = obind ?x _ => destruct x as [ptrs|] end; [|reflexivity]. cbn [obind]. do 4 f_equal. apply filter_ext.
    intro p. unfold filter_keep. rewrite (nil_same _ _ SI), (nil_same _ _ SE), (mem_same _ _ _ SI), (mem_same _ _ _ SE). reflexivity. }
  rewrite FM. reflexivity.
Qed.
Print Assumptions C101_filter_numbers.

(* ---- info ---- *)
Lemma Forall2_length : forall A B (R : A -> B -> Prop) l l', Forall2 R l l' -> length l = length l'.
Proof. induction 1; cbn [length]; congruence. Qed.
Lemma stamps_same : forall f, place_free f -> forall ps qs, Forall2 same ps qs -> stamps f ps = stamps f qs.
Proof.
  intros f PF ps qs F. induction F as [|p q ps qs X F IH]; [reflexivity|]. cbn [stamps]. rewrite IH. destruct p as [h d o], q as [h' d' o'], X as [E D]. cbn [p_header p_data] in *. subst.
  rewrite (PF h' d' o o'). reflexivity.
Qed.
Lemma describes_same : forall f, place_free f -> forall ps qs s, Forall2 same ps qs -> describes f ps s -> describes f qs s.
Proof. intros f PF ps qs s F. unfold describes. rewrite (stamps_same f PF _ _ F), (Forall2_length _ _ _ _ _ F). auto. Qed.
Definition wire_stamps (f : packet -> option Z) (w : wire_packet) : list Z := stamps f [mkPacket (w_header w) (wire_bytes w) 0].
Lemma stamps_wires : forall f, place_free f -> forall ws off, stamps f (packets_at off ws) = concat (map (wire_stamps f) ws).
Proof.
  intros f PF. induction ws as [|w ws IH]; intro off; [reflexivity|]. cbn [packets_at stamps p_header map concat]. rewrite IH. unfold wire_stamps. cbn [stamps p_header].
  rewrite app_nil_r, (PF _ _ off 0%nat). reflexivity.
Qed.
Lemma concat_perm : forall A (l l' : list (list A)), Permutation l l' -> Permutation (concat l) (concat l').
Proof.
  intros A l l' P. induction P as [|x l l' P IH|x y l|l l' l'' P1 IH1 P2 IH2]; cbn [concat].
  - constructor.
  - apply Permutation_app_head. exact IH.
  - rewrite !app_assoc. apply Permutation_app_tail. apply Permutation_app_comm.
  - eapply Permutation_trans; eassumption.
Qed.
Lemma min_perm : forall ts ts', Permutation ts ts' -> min_of ts = min_of ts'.
Proof.
  intros ts ts' P. assert (A := min_of_spec ts). assert (B := min_of_spec ts'). destruct (min_of ts) as [m|].
  - destruct A as [I M]. destruct (min_of ts') as [m'|].
    + destruct B as [I' M']. f_equal. apply Z.le_antisymm; [apply M; eapply Permutation_in; [apply Permutation_sym; exact P|exact I']|apply M'; eapply Permutation_in; [exact P|exact I]].
    + subst ts'. apply Permutation_sym, Permutation_nil in P. subst ts. destruct I.
  - subst ts. apply Permutation_nil in P. subst ts'. reflexivity.
Qed.
Lemma max_perm : forall ts ts', Permutation ts ts' -> max_of ts = max_of ts'.
Proof.
  intros ts ts' P. assert (A := max_of_spec ts). assert (B := max_of_spec ts'). destruct (max_of ts) as [m|].
  - destruct A as [I M]. destruct (max_of ts') as [m'|].
    + destruct B as [I' M']. f_equal. apply Z.le_antisymm; [apply M'; eapply Permutation_in; [exact P|exact I]|apply M; eapply Permutation_in; [apply Permutation_sym; exact P|exact I']].
    + subst ts'. apply Permutation_sym, Permutation_nil in P. subst ts. destruct I.
  - subst ts. apply Permutation_nil in P. subst ts'. reflexivity.
Qed.
Lemma describes_figures : forall f, place_free f -> forall ws ws' off off' s s', Permutation ws ws' ->
  describes f (packets_at off ws) s -> describes f (packets_at off' ws') s' -> same_figures s s'.
Proof.
  intros f PF ws ws' off off' s s' P (A & B & C & D) (A' & B' & C' & D'). unfold same_figures. rewrite A, B, C, D, A', B', C', D', !(stamps_wires f PF).
  assert (Q := concat_perm _ _ _ (Permutation_map (wire_stamps f) P)). rewrite (min_perm _ _ Q), (max_perm _ _ Q). repeat split.
  rewrite (Forall2_length _ _ _ _ _ (packets_wires ws off)), (Forall2_length _ _ _ _ _ (packets_wires ws' off')), (Permutation_length P). reflexivity.
Qed.
Lemma of_apid_same : forall a ws off off', Forall2 same (of_apid a (packets_at off ws)) (packets_at off' (of_apid_wires a ws)).
Proof.
  intros a. unfold of_apid, of_apid_wires. induction ws as [|w ws IH]; intros off off'; [constructor|]. cbn [packets_at filter]. unfold apid_of at 1. cbn [p_header].
  destruct (apid (w_header w) =? a); [|apply IH]. cbn [packets_at]. constructor; [split; reflexivity|apply IH].
Qed.
Lemma gaps_same : forall ps qs, Forall2 same ps qs -> gaps ps = gaps qs.
Proof.
  intros ps qs F. induction F as [|p q ps qs X F IH]; [reflexivity|]. cbn [gaps]. destruct F as [|p' q' ps qs Y F]; [reflexivity|]. rewrite IH. destruct X as [X _], Y as [Y _].
  unfold seq. rewrite X, Y. reflexivity.
Qed.
Lemma decoder_free : forall cds : bool, place_free (tf (if cds then Some cds_time else None)).
Proof. intros [|]; [exact cds_place_free|]. intros h d o o'. reflexivity. Qed.
Lemma same_list : forall l l' : list N, StronglySorted N.lt l -> StronglySorted N.lt l' -> same_members l l' -> l = l'.
Proof. intros l l' A B C. apply (strict_same _ N.lt); [intros x y; lia|exact A|exact B|exact C]. Qed.
(* The order of the packets does not matter for the numbers of packets, the times and the durations, in total and by apid *)
Theorem C101_info_order : forall ovf fs a b bs bs' ws ws' cds, aget a fs = Some bs -> aget b fs = Some bs' ->
  file_holds bs ws -> file_holds bs' ws' -> Permutation ws ws' ->
  exists all rows all' rows', info_command ovf fs a cds = Val (Some (all, rows)) /\ info_command ovf fs b cds = Val (Some (all', rows')) /\
    same_figures all all' /\ Forall2 (fun r r' => fst r = fst r' /\ same_figures (snd r) (snd r')) rows rows'.
Proof.
  intros ovf fs a b bs bs' ws ws' cds G G' F F' P.
  destruct (C69_info_command ovf fs a bs ws cds G F) as (all & rows & E & D & _ & SO & M & R).
  destruct (C69_info_command ovf fs b bs' ws' cds G' F') as (all' & rows' & E' & D' & _ & SO' & M' & R').
  exists all, rows, all', rows'. split; [exact E|]. split; [exact E'|]. assert (PF := decoder_free cds). split; [eapply describes_figures; eassumption|].
  assert (K : map fst rows = map fst rows').
  { apply same_list; [exact SO|exact SO'|]. intro x. rewrite M, M'. split; intros (w & I & EW); exists w; (split; [|exact EW]); (eapply Permutation_in; [|exact I]); [|apply Permutation_sym]; exact P. }
  assert (FIG : forall x s s', In (x, s) rows -> In (x, s') rows' -> same_figures s s').
  { intros x s s' I I'. destruct (R x s I) as [X _]. destruct (R' x s' I') as [X' _].
    eapply describes_figures; [exact PF|apply (filter_perm _ (fun w => apid (w_header w) =? x) _ _ P)|eapply describes_same; [exact PF|apply of_apid_same with (off' := 0%nat)|exact X]|
      eapply describes_same; [exact PF|apply of_apid_same with (off' := 0%nat)|exact X']]. }
  clear -K FIG. revert rows' K FIG. induction rows as [|[x s] rows IH]; intros [|[x' s'] rows'] K FIG; try discriminate; [constructor|]. cbn [map fst] in K. injection K as -> K.
  constructor; [split; [reflexivity|apply (FIG x'); left; reflexivity]|]. apply IH; [exact K|]. intros y t t' I I'. apply (FIG y); right; assumption.
Qed.
Print Assumptions C101_info_order.

Lemma filter_split : forall A (f : A -> bool) l x r, filter f l = x :: r -> exists l1 l2, l = l1 ++ x :: l2 /\ filter f l1 = [] /\ filter f l2 = r.
Proof.
  intros A f l x r. induction l as [|y l IH]; [discriminate|]. cbn [filter]. destruct (f y) eqn:E; intro H.
  - injection H as -> H. exists [], l. auto.
  - destruct (IH H) as (l1 & l2 & -> & H1 & H2). exists (y :: l1), l2. split; [reflexivity|]. cbn [filter]. rewrite E. auto.
Qed.
Lemma interleaved_perm : forall ws ws', interleaved ws ws' -> Permutation ws ws'.
Proof.
  induction ws as [|w ws IH]; intros ws' H.
  - destruct ws' as [|w ws']; [constructor|]. specialize (H (apid (w_header w))). unfold of_apid_wires in H. cbn [filter] in H. rewrite N.eqb_refl in H. discriminate.
  - assert (X := H (apid (w_header w))). unfold of_apid_wires in X. cbn [filter] in X. rewrite N.eqb_refl in X. symmetry in X. apply filter_split in X. destruct X as (l1 & l2 & -> & E1 & E2).
    apply Permutation_cons_app. apply IH. intro a. specialize (H a). unfold of_apid_wires in *. rewrite filter_app in *. cbn [filter] in H. destruct (N.eqb_spec (apid (w_header w)) a) as [EA|NE]; [rewrite <- EA in *|exact H].
    rewrite E1 in *. cbn [app] in *. injection H as H. exact H.
Qed.
(* How the apids are interleaved does not matter at all *)
Theorem C101_info_interleaving : forall ovf fs a b bs bs' ws ws' cds, aget a fs = Some bs -> aget b fs = Some bs' ->
  file_holds bs ws -> file_holds bs' ws' -> interleaved ws ws' -> info_command ovf fs a cds = info_command ovf fs b cds.
Proof.
  intros ovf fs a b bs bs' ws ws' cds G G' F F' IL. assert (P := interleaved_perm _ _ IL).
  destruct (C69_info_command ovf fs a bs ws cds G F) as (all & rows & -> & D & MI & SO & M & R).
  destruct (C69_info_command ovf fs b bs' ws' cds G' F') as (all' & rows' & -> & D' & MI' & SO' & M' & R').
  assert (PF := decoder_free cds).
  assert (EQ : forall s s', same_figures s s' -> i_missing s = i_missing s' -> s = s').
  { intros [t1 m1 f1 l1 d1] [t2 m2 f2 l2 d2] (A1 & A2 & A3 & A4) A5. cbn in *. congruence. }
  assert (K : map fst rows = map fst rows').
  { apply same_list; [exact SO|exact SO'|]. intro x. rewrite M, M'. split; intros (w & I & EW); exists w; (split; [|exact EW]); (eapply Permutation_in; [|exact I]); [|apply Permutation_sym]; exact P. }
  assert (FIG : forall x s s', In (x, s) rows -> In (x, s') rows' -> s = s').
  { intros x s s' I I'. destruct (R x s I) as [X Y]. destruct (R' x s' I') as [X' Y']. apply EQ.
    - eapply describes_figures; [exact PF|apply (filter_perm _ (fun w => apid (w_header w) =? x) _ _ P)|eapply describes_same; [exact PF|apply of_apid_same with (off' := 0%nat)|exact X]|
        eapply describes_same; [exact PF|apply of_apid_same with (off' := 0%nat)|exact X']].
    - rewrite Y, Y', (gaps_same _ _ (of_apid_same x ws 0 0)), (gaps_same _ _ (of_apid_same x ws' 0 0)). f_equal. f_equal. exact (IL x). }
  assert (rows = rows') as <-.
  { clear -K FIG. revert rows' K FIG. induction rows as [|[x s] rows IH]; intros [|[x' s'] rows'] K FIG; try discriminate; [reflexivity|]. cbn [map fst] in K. injection K as -> K.
    f_equal; [f_equal; apply (FIG x'); left; reflexivity|]. apply IH; [exact K|]. intros y t t' I I'. apply (FIG y); right; assumption. }
  do 3 f_equal. apply EQ; [eapply describes_figures; eassumption|congruence].
Qed.
Print Assumptions C101_info_interleaving.
(* The missing packets do depend on the order of the packets of one apid *)
Theorem C101_info_missing_refuted : exists ovf fs a b bs bs' ws ws' cds all rows all' rows',
  aget a fs = Some bs /\ aget b fs = Some bs' /\ file_holds bs ws /\ file_holds bs' ws' /\ Permutation ws ws' /\
  info_command ovf fs a cds = Val (Some (all, rows)) /\ info_command ovf fs b cds = Val (Some (all', rows')) /\ i_missing all = 0 /\ i_missing all' <> 0.
Proof.
  pose (x := mg_wire 7 3 1 22000 []). pose (y := mg_wire 7 3 2 22000 []).
  exists true, [(1, wire_bytes x ++ wire_bytes y ++ []); (2, wire_bytes y ++ wire_bytes x ++ [])], 1, 2, (wire_bytes x ++ wire_bytes y ++ []), (wire_bytes y ++ wire_bytes x ++ []), [x; y], [y; x], true.
  do 4 eexists. split; [reflexivity|]. split; [reflexivity|].
  split; [apply (wires_file [x; y]); [repeat constructor|repeat constructor; vm_compute; discriminate]|].
  split; [apply (wires_file [y; x]); [repeat constructor|repeat constructor; vm_compute; discriminate]|].
  split; [constructor|]. split; [vm_compute; reflexivity|]. split; [vm_compute; reflexivity|]. split; [reflexivity|]. cbn. discriminate.
Qed.
Print Assumptions C101_info_missing_refuted.

(* ---- the hypotheses can be met ---- *)
(* the files of st_m (P_Compose.v) in another order and one of them twice; the same packets in one file *)
Definition od_all (p : N) : list wire_packet := [mg_wire 826 3 4 22000 [2]; mg_wire 900 3 9 21999 [3]; mg_wire 821 3 7 22000 [1]].
Definition od_part (p : N) : list wire_packet := if p =? 0 then [mg_wire 821 3 7 22000 [1]; mg_wire 826 3 4 22000 [2]] else [mg_wire 821 3 7 22000 [1]; mg_wire 900 3 9 21999 [3]].
Example C101_merge_paths_ex : merge reversed st_fs (on_paths st_m [1; 0; 1]) = Val (Ok st_out) /\
  merge reversed (od_fs od_all) (on_paths st_m [0]) = Val (Ok (concat (map wire_bytes [mg_wire 900 3 9 21999 [3]; mg_wire 821 3 7 22000 [1]; mg_wire 826 3 4 22000 [2]]))).
Proof.
  split.
  - rewrite (C101_merge_paths in_order reversed st_fs st_m [0; 1] [1; 0; 1] st_ws in_order_ok reversed_ok); [vm_compute; reflexivity| |apply st_readable|apply st_no_ties].
    intro p. cbn [In]. tauto.
  - assert (RD : forall paths, readable (od_fs od_part) (on_paths st_m paths) od_part).
    { intros paths p _. eexists. split; [reflexivity|]. unfold od_part. destruct (p =? 0); (apply wires_file; [repeat constructor|repeat constructor; vm_compute; discriminate]). }
    assert (RD' : readable (od_fs od_all) (on_paths st_m [0]) od_all).
    { intros p _. eexists. split; [reflexivity|]. apply wires_file; [repeat constructor|repeat constructor; vm_compute; discriminate]. }
    assert (SP : all_standalone [0; 1] od_part).
    { intros p w _ I. unfold od_part in I. destruct (p =? 0); destruct I as [<-|[<-|[]]]; reflexivity. }
    rewrite (C101_merge_distribution in_order reversed (od_fs od_part) (od_fs od_all) st_m [0; 1] [0] od_part od_all in_order_ok reversed_ok (RD [0; 1]) RD' cds_place_free); [vm_compute; reflexivity| |exact SP| |].
    + intros g g' t a s a' s' G G' KG KG' O. apply eligible_alone in G, G'; [|exact SP|exact SP]. destruct G as (p & k & _ & I & -> & _). destruct G' as (p' & k' & _ & I' & -> & _).
      rewrite gkey_on in KG, KG'. unfold od_part in I, I'.
      destruct (p =? 0), (p' =? 0); destruct I as [<-|[<-|[]]]; destruct I' as [<-|[<-|[]]]; vm_compute in KG, KG'; injection KG as <- <- <-; injection KG'; intros; subst; try discriminate;
        try (vm_compute in O; discriminate); (split; [reflexivity|split; [reflexivity|vm_compute; reflexivity]]).
    + intros p w _ I. unfold od_all in I. destruct I as [<-|[<-|[<-|[]]]]; reflexivity.
    + intro w. split.
      * intros (p & [<-|[<-|[]]] & [<-|[<-|[]]]); exists 0; (split; [left; reflexivity|]); cbn [od_all In]; auto.
      * intros (p & [<-|[]] & [<-|[<-|[<-|[]]]]); [exists 0|exists 1|exists 0]; (split; [cbn [In]; auto|]); cbn [In od_part N.eqb]; vm_compute; auto.
Qed.
Example C101_merge_apids_ex : merge in_order st_fs (with_apids st_m [900; 826; 900]) = merge in_order st_fs (with_apids st_m [826; 900]) /\
  exists out, merge in_order st_fs (with_apids st_m [826; 900]) = Val (Ok out) /\ out <> [] /\ out <> st_out.
Proof.
  split; [apply C101_merge_apids; intro x; cbn [In]; tauto|]. eexists. split; [vm_compute; reflexivity|]. split; vm_compute; discriminate.
Qed.
Definition od_args (inputs apids : list N) : merge_args := mkMergeArgs None None None None apids false 9 inputs.
Definition od_disk : fsys := [(0, concat (map wire_bytes (st_ws 0))); (1, concat (map wire_bytes (st_ws 1)))].
Example C101_merge_command_ex : merge_command reversed (fun _ => true) od_disk (od_args [1; 0; 0] []) = merge_command in_order (fun _ => true) od_disk (od_args [0; 1] []).
Proof.
  apply (C101_merge_command in_order reversed (fun _ => true) od_disk (od_args [0; 1] []) (od_args [1; 0; 0] []) [] st_ws in_order_ok reversed_ok);
    try reflexivity; try discriminate.
  - right. reflexivity.
  - intros p I. right. split; [destruct I as [<-|[<-|[]]]; discriminate|]. destruct (st_readable [0; 1] p I) as (bs & E & F). exists bs. split; [|exact F].
    injection E as <-. destruct I as [<-|[<-|[]]]; reflexivity.
  - intros g g' t a s a' s' G G' K K' O. apply (st_no_ties [0; 1] g g' t a s a' s'); try assumption.
  - intro x. cbn [In ma_inputs od_args]. tauto.
  - intro x. reflexivity.
Qed.
(* dx_fs (P_CliDiff2.v) and the same with the packets of the second file in another order *)
Definition od_right : list wire_packet := [fl_wire 9 1; fl_wire 7 1; fl_wire 7 1; fl_wire 9 2].
Definition od_right' : list wire_packet := [fl_wire 7 1; fl_wire 9 2; fl_wire 7 1; fl_wire 9 1].
Definition od_left : list wire_packet := [fl_wire 7 1; fl_wire 8 1].
Definition od_dx : fsys := [(1, concat (map wire_bytes od_left)); (2, concat (map wire_bytes od_right)); (3, concat (map wire_bytes od_right'))].
Lemma od_dx_files : file_holds (concat (map wire_bytes od_left)) od_left /\ file_holds (concat (map wire_bytes od_right)) od_right /\ file_holds (concat (map wire_bytes od_right')) od_right'.
Proof. split; [|split]; (apply wires_file; [repeat constructor|repeat constructor; vm_compute; discriminate]). Qed.
Lemma od_perm : Permutation od_right od_right'.
Proof.
  unfold od_right, od_right'. apply Permutation_sym. apply (Permutation_trans (l' := [fl_wire 9 1; fl_wire 7 1; fl_wire 9 2; fl_wire 7 1])).
  - apply (Permutation_app_comm [fl_wire 7 1; fl_wire 9 2; fl_wire 7 1] [fl_wire 9 1]).
  - do 2 constructor. constructor.
Qed.
Example C101_diff_ex : exists printed result, diff_command sum8 od_dx true 1 2 = Val (Some (printed, result)) /\ diff_command sum8 od_dx true 1 3 = Val (Some (printed, result)) /\
  diff_command sum8 od_dx true 2 1 = Val (Some (option_map mirrored printed, result)) /\ result = DiffCount 3.
Proof.
  destruct od_dx_files as (A & B & C). destruct (C101_diff_swap sum8 od_dx true 1 2 _ _ _ _ eq_refl eq_refl A B) as (p & r & E1 & E2). exists p, r.
  split; [exact E1|]. split; [|split; [exact E2|]].
  - rewrite <- E1. symmetry. apply (C101_diff_order sum8 od_dx true 1 2 1 3 _ _ _ _ od_left od_right od_left od_right' eq_refl eq_refl A B eq_refl eq_refl A C (Permutation_refl _) od_perm).
  - vm_compute in E1. congruence.
Qed.
Example C101_filter_ex : filter_command (fun _ => true) cp_fs (mkFilterArgs [[55]; [56; 45; 57]] [] None None false 2 1) =
  filter_command (fun _ => true) cp_fs (mkFilterArgs [[57]; [55; 45; 57]; [57; 57; 57; 57; 57; 57]] [] None None false 2 1).
Proof.
  apply (C101_filter_numbers (fun _ => true) cp_fs _ _ [7; 8; 9] [] [9; 7; 8; 9; 999999] []); try reflexivity.
  - split; apply C50_parse_number_ranges; vm_compute; reflexivity.
  - split; apply C50_parse_number_ranges; vm_compute; reflexivity.
  - intros v L. cbn [In]. split; intros I; repeat (destruct I as [<-|I]; [auto|]); try destruct I. lia.
  - intros v _. reflexivity.
Qed.
Example C101_info_ex : exists all rows all' rows', info_command true od_dx 2 true = Val (Some (all, rows)) /\ info_command true od_dx 3 true = Val (Some (all', rows')) /\
  same_figures all all' /\ i_total all = 4 /\ i_first all <> i_last all.
Proof.
  destruct od_dx_files as (A & B & C). destruct (C101_info_order true od_dx 2 3 _ _ od_right od_right' true eq_refl eq_refl B C od_perm) as (all & rows & all' & rows' & E & E' & S' & _).
  exists all, rows, all', rows'. split; [exact E|]. split; [exact E'|]. split; [exact S'|]. vm_compute in E. injection E as <- <-. split; [reflexivity|]. vm_compute. discriminate.
Qed.
Definition od_mix : list wire_packet := [mg_wire 7 3 1 22000 []; mg_wire 8 3 5 22000 []; mg_wire 7 3 3 22000 []].
Definition od_mix' : list wire_packet := [mg_wire 8 3 5 22000 []; mg_wire 7 3 1 22000 []; mg_wire 7 3 3 22000 []].
Example C101_info_interleaving_ex : let fs := [(1, concat (map wire_bytes od_mix)); (2, concat (map wire_bytes od_mix'))] in
  info_command true fs 1 true = info_command true fs 2 true /\ exists all rows, info_command true fs 1 true = Val (Some (all, rows)) /\ i_missing all = 1.
Proof.
  intro fs. split.
  - apply (C101_info_interleaving true fs 1 2 _ _ od_mix od_mix' true eq_refl eq_refl).
    + apply wires_file; [repeat constructor|repeat constructor; vm_compute; discriminate].
    + apply wires_file; [repeat constructor|repeat constructor; vm_compute; discriminate].
    + intro a. unfold of_apid_wires, od_mix, od_mix'. cbn [filter w_header mg_wire apid]. destruct (N.eqb_spec 7 a) as [<-|N7]; [reflexivity|]. destruct (8 =? a); reflexivity.
  - do 2 eexists. split; vm_compute; reflexivity.
Qed.
