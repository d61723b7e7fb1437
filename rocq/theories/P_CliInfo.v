(* Property C52: the info command *)
From Coq Require Import Permutation Sorted.
From Verif Require Import Base S_InfoTotals M_Reader M_Packet M_Group M_Timecode S_Packet S_Group L_Base L_Group M_Merge S_Merge L_Merge M_Cli S_Cli.
Open Scope N_scope.


Lemma stamps_app : forall f a b, stamps f (a ++ b) = stamps f a ++ stamps f b.
Proof. intros f a b. induction a as [|p a IH]; cbn [stamps app]; [reflexivity|]. rewrite IH, app_assoc. reflexivity. Qed.
Lemma min_snoc : forall ts t, min_of (ts ++ [t]) = Some (match min_of ts with None => t | Some c => Z.min t c end).
Proof. intros [|a ts] t; cbn [min_of app]; [reflexivity|]. rewrite fold_left_app. cbn [fold_left]. rewrite Z.min_comm. reflexivity. Qed.
Lemma max_snoc : forall ts t, max_of (ts ++ [t]) = Some (match max_of ts with None => t | Some c => Z.max t c end).
Proof. intros [|a ts] t; cbn [max_of app]; [reflexivity|]. rewrite fold_left_app. cbn [fold_left]. rewrite Z.max_comm. reflexivity. Qed.
(* min_of and max_of are what their names say *)
Lemma min_of_spec : forall ts, match min_of ts with None => ts = [] | Some m => In m ts /\ forall t, In t ts -> (m <= t)%Z end.
Proof.
  induction ts as [|t ts IH] using rev_ind; [reflexivity|]. rewrite min_snoc. destruct (min_of ts) as [c|].
  - destruct IH as [I M]. split.
    + apply in_or_app. destruct (Z.min_spec t c) as [[_ ->]|[_ ->]]; [right; left; reflexivity|left; exact I].
    + intros x X. apply in_app_or in X. destruct X as [X|[->|[]]]; [apply M in X|]; lia.
  - subst ts. split; [left; reflexivity|]. intros x [->|[]]. lia.
Qed.
Lemma max_of_spec : forall ts, match max_of ts with None => ts = [] | Some m => In m ts /\ forall t, In t ts -> (t <= m)%Z end.
Proof.
  induction ts as [|t ts IH] using rev_ind; [reflexivity|]. rewrite max_snoc. destruct (max_of ts) as [c|].
  - destruct IH as [I M]. split.
    + apply in_or_app. destruct (Z.max_spec t c) as [[_ ->]|[_ ->]]; [left; exact I|right; left; reflexivity].
    + intros x X. apply in_app_or in X. destruct X as [X|[->|[]]]; [apply M in X|]; lia.
  - subst ts. split; [left; reflexivity|]. intros x [->|[]]. lia.
Qed.

(* the effect of one packet on a summary *)
Definition bump (time_of : option (packet -> option Z)) (miss : N) (p : packet) (s : isummary) : isummary :=
  let s1 := mkIsummary (i_total s + 1) (i_missing s + miss) (i_first s) (i_last s) (i_duration s) in
  match (if has_secondary_header (p_header p) then match time_of with Some f => f p | None => None end else None) with
  | Some t => add_time s1 t
  | None => s1
  end.
Lemma bump_ok : forall time_of miss p ps s, describes (tf time_of) ps s ->
  describes (tf time_of) (ps ++ [p]) (bump time_of miss p s) /\ i_missing (bump time_of miss p s) = i_missing s + miss.
Proof.
  intros time_of miss p ps s (T & F & L & D). unfold bump, describes. rewrite stamps_app, app_length. cbn [stamps]. rewrite app_nil_r.
  assert (E : (if has_secondary_header (p_header p) then match time_of with Some f => f p | None => None end else None) =
              (if has_secondary_header (p_header p) then tf time_of p else None)) by (destruct time_of; reflexivity).
  rewrite E. destruct (has_secondary_header (p_header p)); [destruct (tf time_of p) as [t|]|].
  - rewrite min_snoc, max_snoc. unfold add_time. cbn [i_total i_missing i_first i_last i_duration length].
    rewrite F, L. split; [|reflexivity]. split; [lia|]. repeat split.
  - rewrite app_nil_r. cbn [i_total i_missing i_first i_last i_duration length]. split; [|reflexivity]. split; [lia|]. auto.
  - rewrite app_nil_r. cbn [i_total i_missing i_first i_last i_duration length]. split; [|reflexivity]. split; [lia|]. auto.
Qed.
Lemma info_step_bump : forall ovf time_of s p, info_step ovf time_of s p =
  let* miss := match aget (apid (p_header p)) (is_seqid s) with None => Val 0 | Some last => missing_packets ovf (sequence_id (p_header p)) last end in
  Val (mkIstate (aset (apid (p_header p)) (sequence_id (p_header p)) (is_seqid s))
                (aset (apid (p_header p)) (bump time_of miss p (match aget (apid (p_header p)) (is_apids s) with Some x => x | None => isummary0 end)) (is_apids s))
                (bump time_of miss p (is_all s))).
Proof.
  intros. unfold info_step. destruct (match aget _ (is_seqid s) with None => _ | Some _ => _ end); [|reflexivity]. cbn [obind]. unfold bump.
  destruct (if has_secondary_header (p_header p) then _ else _); reflexivity.
Qed.

Record iinv (time_of : option (packet -> option Z)) (ps : list packet) (s : istate) : Prop := {
  ii_all : describes (tf time_of) ps (is_all s);
  ii_nodup : NoDup (map fst (is_apids s));
  ii_keys : forall a, In a (map fst (is_apids s)) <-> of_apid a ps <> [];
  ii_rows : forall a x, aget a (is_apids s) = Some x -> describes (tf time_of) (of_apid a ps) x /\ i_missing x = gaps (of_apid a ps);
  ii_seq : forall a, aget a (is_seqid s) = match rev (of_apid a ps) with [] => None | p :: _ => Some (seq p) end;
  ii_miss : i_missing (is_all s) = missing_sum (is_apids s) }.
Lemma missing_aset : forall a v m, NoDup (map fst m) ->
  missing_sum (aset a v m) + match aget a m with Some o => i_missing o | None => 0 end = missing_sum m + i_missing v.
Proof.
  intros a v m ND. unfold missing_sum. induction m as [|[k o] m IH]; cbn; [lia|].
  inversion ND; subst. destruct (N.eqb_spec a k); cbn; [lia|]. specialize (IH H2). lia.
Qed.
Lemma info_step_ok : forall ovf time_of ps s p, Forall seq_ok ps -> seq_ok p -> iinv time_of ps s ->
  exists s', info_step ovf time_of s p = Val s' /\ iinv time_of (ps ++ [p]) s'.
Proof.
  intros ovf time_of ps s p HP Hp I. rewrite info_step_bump. fold (apid_of p). fold (seq p). set (a := apid_of p).
  set (miss := match rev (of_apid a ps) with [] => 0 | q :: _ => seq_gap (seq p) (seq q) end).
  replace (match aget a (is_seqid s) with None => Val 0 | Some last => missing_packets ovf (seq p) last end) with (Val miss : outcome N).
  2:{ rewrite (ii_seq _ _ _ I). unfold miss. destruct (rev (of_apid a ps)) as [|q l] eqn:E; [reflexivity|].
      symmetry. apply missing_packets_gap; [exact Hp|]. assert (Q : In q (of_apid a ps)) by (rewrite in_rev, E; left; reflexivity).
      unfold of_apid in Q. apply filter_In in Q. rewrite Forall_forall in HP. apply (HP q (proj1 Q)). }
  cbn [obind]. eexists. split; [reflexivity|].
  set (old := match aget a (is_apids s) with Some x => x | None => isummary0 end).
  assert (OLD : describes (tf time_of) (of_apid a ps) old /\ i_missing old = gaps (of_apid a ps)).
  { unfold old. destruct (aget a (is_apids s)) as [x|] eqn:E; [apply (ii_rows _ _ _ I _ _ E)|].
    assert (N : of_apid a ps = []).
    { destruct (of_apid a ps) eqn:Q; [reflexivity|]. exfalso. apply aget_none in E. apply E. apply (ii_keys _ _ _ I). rewrite Q. discriminate. }
    rewrite N. split; [repeat split|reflexivity]. }
  destruct (bump_ok time_of miss p _ _ (proj1 OLD)) as [D M].
  destruct (bump_ok time_of miss p _ _ (ii_all _ _ _ I)) as [DA MA].
  split; cbn [is_seqid is_apids is_all].
  - exact DA.
  - apply nodup_aset. apply (ii_nodup _ _ _ I).
  - intro b. rewrite keys_aset, of_apid_snoc. fold a. destruct (N.eqb_spec a b) as [->|NE].
    + split; [|auto]. intros _ C. apply app_eq_nil in C. destruct C; discriminate.
    + rewrite app_nil_r, (ii_keys _ _ _ I). split; [intros [C|C]; [congruence|exact C]|auto].
  - intros b x. rewrite aget_aset, of_apid_snoc. fold a. rewrite N.eqb_sym. destruct (N.eqb_spec a b) as [->|NE].
    + intro E. injection E as <-. split; [exact D|]. rewrite M, (proj2 OLD), gaps_snoc. reflexivity.
    + rewrite app_nil_r. apply (ii_rows _ _ _ I).
  - intro b. rewrite aget_aset, of_apid_snoc. fold a. rewrite N.eqb_sym. destruct (N.eqb_spec a b) as [->|NE].
    + rewrite rev_app_distr. reflexivity.
    + rewrite app_nil_r. apply (ii_seq _ _ _ I).
  - assert (X := missing_aset a (bump time_of miss p old) (is_apids s) (ii_nodup _ _ _ I)).
    assert (Y : match aget a (is_apids s) with Some o => i_missing o | None => 0 end = i_missing old) by (unfold old; destruct (aget a (is_apids s)); reflexivity).
    rewrite Y, M in X. rewrite MA, (ii_miss _ _ _ I). lia.
Qed.
Lemma info_steps_ok : forall ovf time_of ps done s, Forall seq_ok (done ++ ps) -> iinv time_of done s ->
  exists s', info_steps ovf time_of s ps = Val s' /\ iinv time_of (done ++ ps) s'.
Proof.
  intros ovf time_of ps. induction ps as [|p ps IH]; intros done s H I.
  - exists s. rewrite app_nil_r. auto.
  - assert (H' := H). apply Forall_app in H'. destruct H' as [H1 H2]. inversion H2 as [|? ? Hp Hps]; subst.
    destruct (info_step_ok ovf time_of done s p H1 Hp I) as (s1 & E & I1). cbn [info_steps]. rewrite E. cbn [obind].
    destruct (IH (done ++ [p]) s1) as (s2 & E2 & I2); [rewrite <- app_assoc; exact H|exact I1|].
    exists s2. split; [exact E2|]. rewrite <- app_assoc in I2. exact I2.
Qed.

(* sorting by key *)
Lemma apid_insert_perm : forall V (kv : N * V) l, Permutation (kv :: l) (apid_insert kv l).
Proof.
  induction l as [|x l IH]; cbn [apid_insert]; [reflexivity|]. destruct (fst kv <=? fst x); [reflexivity|].
  etransitivity; [apply perm_swap|]. constructor. exact IH.
Qed.
Lemma apid_sort_perm : forall V (l : amap V), Permutation l (apid_sort l).
Proof. induction l as [|x l IH]; cbn; [constructor|]. etransitivity; [constructor; exact IH|apply apid_insert_perm]. Qed.
Lemma apid_sort_sorted : forall V (l : amap V), NoDup (map fst l) -> StronglySorted N.lt (map fst (apid_sort l)).
Proof.
  intros V l N. assert (NS : NoDup (map fst (apid_sort l))) by (apply (Permutation_NoDup (Permutation_map fst (apid_sort_perm _ l))); exact N).
  assert (SS : StronglySorted N.le (map fst (apid_sort l))).
  { clear. induction l as [|kv l IH]; cbn [apid_sort fold_right map]; [constructor|]. fold (apid_sort l). revert IH. generalize (apid_sort l). clear l.
    intro a. induction a as [|x a IH]; intro H; cbn [apid_insert map]; [repeat constructor|]. inversion H as [|? ? H1 H2]; subst.
    destruct (N.leb_spec (fst kv) (fst x)) as [L|L]; cbn [map].
    - constructor; [exact H|]. constructor; [exact L|]. eapply Forall_impl; [|exact H2]. cbn. intros. lia.
    - constructor; [apply IH; exact H1|]. apply (Permutation_Forall (Permutation_map fst (apid_insert_perm _ kv a))). cbn [map]. constructor; [lia|exact H2]. }
  revert NS SS. generalize (map fst (apid_sort l)). clear. induction l as [|a l IH]; intros N H; [constructor|].
  inversion N; inversion H; subst. constructor; [auto|]. rewrite Forall_forall in *. intros x X. assert (a <= x) by auto. assert (a <> x) by (intros ->; contradiction). lia.
Qed.

(* ---- C52 ---- *)
(* items is what decode_packets returns, failed reads included. Rows: one for each apid present, by
   increasing apid. *)
Theorem C52_info : forall ovf time_of items, let ps := keep_ok items in
  Forall (fun p => sequence_id (p_header p) < 16384) ps ->
  exists all rows, summarize ovf time_of items = Val (all, rows) /\
    describes (tf time_of) ps all /\ i_missing all = missing_sum rows /\
    StronglySorted N.lt (map fst rows) /\
    (forall a, In a (map fst rows) <-> exists p, In p ps /\ apid (p_header p) = a) /\
    (forall a s, In (a, s) rows -> describes (tf time_of) (of_apid a ps) s /\ i_missing s = gaps (of_apid a ps)).
Proof.
  intros ovf time_of items ps H. unfold summarize. fold ps.
  destruct (info_steps_ok ovf time_of ps [] (mkIstate [] [] isummary0) H) as (s & E & I).
  { split; cbn [is_all is_apids is_seqid map]; try reflexivity; try (repeat split; fail); try constructor.
    - intros []. - cbn. intro C. contradiction. - discriminate. - discriminate. }
  rewrite E. cbn [obind]. eexists. eexists. split; [reflexivity|].
  assert (P := apid_sort_perm _ (is_apids s)).
  split; [apply (ii_all _ _ _ I)|]. split.
  { rewrite (ii_miss _ _ _ I). unfold missing_sum. apply (Permutation_map (fun x => i_missing (snd x))) in P. clear -P.
    induction P; cbn; lia. }
  split; [apply apid_sort_sorted, (ii_nodup _ _ _ I)|]. split.
  - intro a. rewrite <- (Permutation_map fst P), (ii_keys _ _ _ I). cbn [app]. split.
    + intro N. destruct (of_apid a ps) as [|p l] eqn:Q; [contradiction|]. exists p.
      assert (X : In p (of_apid a ps)) by (rewrite Q; left; reflexivity). unfold of_apid in X. apply filter_In in X. destruct X as [X Y]. apply N.eqb_eq in Y. auto.
    + intros (p & Ip & Ep) N. assert (X : In p (of_apid a ps)) by (unfold of_apid; apply filter_In; split; [exact Ip|apply N.eqb_eq; exact Ep]). rewrite N in X. destruct X.
  - intros a x X. apply (Permutation_in _ (Permutation_sym P)) in X. apply (ii_rows _ _ _ I). apply aget_nodup; [apply (ii_nodup _ _ _ I)|exact X].
Qed.
Print Assumptions C52_info.
Theorem C52_min_max : forall ts,
  match min_of ts, max_of ts with
  | Some f, Some l => In f ts /\ In l ts /\ forall t, In t ts -> (f <= t <= l)%Z
  | None, None => ts = []
  | _, _ => False
  end.
Proof.
  intro ts. assert (A := min_of_spec ts). assert (B := max_of_spec ts). destruct (min_of ts) as [f|], (max_of ts) as [l|]; auto.
  - destruct A as [A1 A2], B as [B1 B2]. split; [exact A1|]. split; [exact B1|]. intros t T. split; auto.
  - destruct A as [A _]. rewrite B in A. exact A.
  - destruct B as [B _]. rewrite A in B. exact B.
Qed.
Print Assumptions C52_min_max.

Definition in_pkt (a sq day : N) (sh : bool) : packet := mkPacket (mkHeader 0 0 sh a 3 sq 7) [0;0;0;0;0;0; day / 256; day mod 256; 0; 0; 0; 1; 0; 2] 0.
Example C52_ex : summarize true (Some cds_time) [Ok (in_pkt 9 16383 22000 true); Err (Io Interrupted); Ok (in_pkt 7 1 21999 true); Ok (in_pkt 9 2 23000 false); Ok (in_pkt 9 3 22002 true)] =
  Val (mkIsummary 4 2 (Some 3731011200001002000%Z) (Some 3731270400001002000%Z) 259200000000000,
       [(7, mkIsummary 1 0 (Some 3731011200001002000%Z) (Some 3731011200001002000%Z) 0);
        (9, mkIsummary 3 2 (Some 3731097600001002000%Z) (Some 3731270400001002000%Z) 172800000000000)]).
Proof. vm_compute. reflexivity. Qed.
