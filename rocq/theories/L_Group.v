From Verif Require Import Base M_Packet M_Group M_Summary S_Group L_Base.
Open Scope N_scope.

Lemma missing_packets_gap : forall ovf cur last, cur < 16384 -> last < 16384 ->
  missing_packets ovf cur last = Val (seq_gap cur last).
Proof.
  intros ovf cur last Hc Hl. unfold missing_packets, seq_gap, add_w, sub_w, SEQ_MAX.
  change (2 ^ 16) with 65536.
  replace (last + 1 <? 65536) with true by lia. cbn [obind].
  destruct (negb (cur =? (if 16383 <? last + 1 then 0 else last + 1))) eqn:E1.
  - destruct (cur <? last + 1) eqn:E2.
    + replace (cur + 16383 <? 65536) with true by lia. cbn [obind].
      replace (last <=? cur + 16383) with true by lia. f_equal.
      rewrite <- (Z_mod_plus_full _ 1). rewrite Z.mod_small; lia.
    + replace (last <=? cur) with true by lia. cbn [obind].
      replace (1 <=? cur - last) with true by lia. f_equal.
      rewrite Z.mod_small; lia.
  - destruct (16383 <? last + 1) eqn:E2.
    + assert (cur = 0 /\ last = 16383) as [-> ->] by lia. reflexivity.
    + assert (cur = last + 1) by lia. subst.
      replace (Z.of_N (last + 1) - Z.of_N last - 1)%Z with 0%Z by lia. reflexivity.
Qed.

Lemma seq_gap_0 : forall cur last, cur < 16384 -> last < 16384 ->
  (seq_gap cur last = 0 <-> cur = (last + 1) mod 16384).
Proof.
  intros. unfold seq_gap.
  assert (B := Z.mod_pos_bound (Z.of_N cur - Z.of_N last - 1) 16384 ltac:(lia)).
  assert (D := Z.div_mod (Z.of_N cur - Z.of_N last - 1) 16384 ltac:(lia)).
  destruct (N.eq_dec last 16383) as [->|].
  - change ((16383 + 1) mod 16384) with 0. lia.
  - rewrite N.mod_small by lia. lia.
Qed.

(* groups *)
Lemma gi_loop_some : forall run rest g p0 tl,
  g_packets g = p0 :: tl ->
  Forall (fun q => apid_of q = apid_of p0) run ->
  match rest with [] => True | q :: _ => apid_of q <> apid_of p0 end ->
  gi_loop (run ++ rest) (Some g) =
    match rest with
    | [] => Val (Some (mkGroup (g_apid g) (g_packets g ++ run)), None, [], true)
    | q :: rest' => Val (Some (mkGroup (g_apid g) (g_packets g ++ run)), Some q, rest', false)
    end.
Proof.
  induction run as [|r run IH]; intros rest g p0 tl Hg Hr Hn.
  - cbn [app]. rewrite app_nil_r. destruct g as [ga gp]. cbn in Hg. subst gp. destruct rest as [|q rest]; [reflexivity|].
    cbn. unfold apid_of in Hn. apply N.eqb_neq in Hn. rewrite Hn. reflexivity.
  - inversion Hr as [|? ? H1 H2]; subst. cbn [app gi_loop]. unfold gi_step. rewrite Hg. cbn [get nth_error obind].
    unfold get. cbn [nth_error obind]. unfold apid_of in H1. rewrite H1, N.eqb_refl. cbn [negb obind].
    rewrite (IH rest _ p0 (tl ++ [r])); cbn [g_packets g_apid]; try assumption; [|reflexivity].
    rewrite <- Hg. rewrite <- !app_assoc. reflexivity.
Qed.

Definition restart (c : option packet) (ps : list packet) : list packet :=
  match c with Some p => p :: ps | None => ps end.

Lemma giter_next_gen : forall s, gi_done s = false ->
  giter_next s =
  match restart (gi_cached s) (gi_packets s) with
  | [] => Val (None, mkGiter [] None true)
  | p :: ps =>
    let* '(g, c, rest, broke) :=
      if is_standalone p then Val (Some (mkGroup (apid_of p) [p]), None, ps, false)
      else gi_loop ps (Some (mkGroup (apid_of p) [p])) in
    if broke then
      match g with
      | Some g => Val (Some g, mkGiter rest c false)
      | None => match c with
                | Some p => Val (Some (mkGroup (apid (p_header p)) [p]), mkGiter rest None true)
                | None => Val (None, mkGiter rest None true) end
      end
    else Val (g, mkGiter rest c false)
  end.
Proof.
  intros [ps c d] E. cbn in E. subst d. unfold giter_next. cbn [gi_done gi_cached gi_packets restart].
  destruct c as [p|].
  - cbn [gi_step restart]. unfold apid_of. destruct (is_standalone p); reflexivity.
  - destruct ps as [|p ps]; [reflexivity|]. cbn [gi_loop gi_step restart]. unfold apid_of.
    destruct (is_standalone p); reflexivity.
Qed.

Lemma grouping_yields_gen : forall l gs, grouping l gs ->
  forall s, gi_done s = false -> restart (gi_cached s) (gi_packets s) = l ->
  yields giter_next s gs.
Proof.
  induction 1 as [|p ps gs Hf Hg IH|p run rest gs Hf Hr Hn Hg IH]; intros s Hd Hs.
  - eapply yields_nil. rewrite giter_next_gen, Hs by assumption. reflexivity.
  - eapply yields_cons.
    + rewrite giter_next_gen, Hs by assumption. unfold is_standalone, SEQ_UNSEGMENTED. rewrite Hf.
      cbn. reflexivity.
    + apply IH; reflexivity.
  - eapply yields_cons.
    + rewrite giter_next_gen, Hs by assumption. unfold is_standalone, SEQ_UNSEGMENTED.
      apply N.eqb_neq in Hf. rewrite Hf.
      rewrite (gi_loop_some run rest _ p []); try assumption; [|reflexivity].
      instantiate (1 := match rest with [] => mkGiter [] None false | q :: r => mkGiter r (Some q) false end).
      destruct rest; reflexivity.
    + apply IH; destruct rest; reflexivity.
Qed.

Fixpoint span (a : N) (ps : list packet) : list packet * list packet :=
  match ps with
  | [] => ([], [])
  | p :: ps' => if apid_of p =? a then let '(x, y) := span a ps' in (p :: x, y) else ([], ps)
  end.
Lemma span_spec : forall a ps, let '(x, y) := span a ps in
  ps = x ++ y /\ Forall (fun q => apid_of q = a) x /\ match y with [] => True | q :: _ => apid_of q <> a end.
Proof.
  induction ps as [|p ps IH]; cbn; [auto|]. destruct (N.eqb_spec (apid_of p) a).
  - destruct (span a ps) as [x y]. destruct IH as (-> & H1 & H2). auto.
  - auto.
Qed.

Lemma grouping_total : forall ps, exists gs, grouping ps gs.
Proof.
  intro ps. remember (length ps) as n. assert (H : (length ps <= n)%nat) by lia. clear Heqn. revert ps H.
  induction n; intros ps H.
  - destruct ps; [|cbn in H; lia]. eexists. constructor.
  - destruct ps as [|p ps]; [eexists; constructor|]. cbn in H.
    destruct (N.eq_dec (sequence_flags (p_header p)) 3) as [E|E].
    + destruct (IHn ps ltac:(lia)) as [gs G]. eexists. eapply grouping_standalone; eassumption.
    + assert (S := span_spec (apid_of p) ps). destruct (span (apid_of p) ps) as [x y]. destruct S as (-> & S1 & S2).
      rewrite app_length in H.
      destruct (IHn y ltac:(lia)) as [gs G]. eexists. eapply grouping_run; eassumption.
Qed.

Lemma groups_exact : forall ps gs, yields giter_next (giter_new ps) gs <-> grouping ps gs.
Proof.
  intros ps gs. split.
  - intro Y. destruct (grouping_total ps) as [gs' G].
    assert (Y' := grouping_yields_gen ps gs' G (giter_new ps) eq_refl eq_refl).
    rewrite (yields_det _ _ _ _ _ _ Y Y'). exact G.
  - intro G. apply (grouping_yields_gen ps gs G); reflexivity.
Qed.

Lemma grouping_concat : forall ps gs, grouping ps gs -> concat (map g_packets gs) = ps.
Proof.
  induction 1; cbn; [reflexivity|rewrite IHgrouping; reflexivity|].
  rewrite IHgrouping. reflexivity.
Qed.
Lemma grouping_wf : forall ps gs, grouping ps gs ->
  Forall (fun g => g_packets g <> [] /\ Forall (fun p => apid_of p = g_apid g) (g_packets g)) gs.
Proof.
  induction 1; constructor; auto; cbn; (split; [discriminate|]); auto.
Qed.

(* have_missing, complete *)
Lemma any_missing_spec : forall ovf ps, Forall seq_ok ps ->
  exists b, any_missing ovf (combine ps (skipn 1 ps)) = Val b /\ (b = false <-> consecutive ps).
Proof.
  intros ovf ps H. induction ps as [|p ps IH].
  - exists false. split; [reflexivity|]. split; [|reflexivity]. intros _ i ? ? E. destruct i; discriminate.
  - inversion H as [|? ? Hp Hps]; subst. destruct (IH Hps) as (b & E & Sb). clear IH.
    destruct ps as [|q ps].
    + exists false. split; [reflexivity|]. split; [|reflexivity]. intros _ i ? ? E1 E2. destruct i; [discriminate|]. destruct i; discriminate.
    + cbn [skipn combine any_missing]. inversion Hps as [|? ? Hq _]; subst.
      unfold seq_ok, seq in Hp, Hq. rewrite missing_packets_gap by assumption. cbn [obind].
      assert (Z0 := seq_gap_0 _ _ Hq Hp). cbn [skipn combine] in E.
      destruct (0 <? seq_gap (sequence_id (p_header q)) (sequence_id (p_header p))) eqn:G.
      * exists true. split; [reflexivity|]. split; [discriminate|]. intro C. exfalso.
        specialize (C 0%nat p q eq_refl eq_refl). unfold seq in C. apply Z0 in C. lia.
      * exists b. split; [exact E|]. rewrite Sb. split.
        -- intros C i a c E1 E2. destruct i; [|apply (C i a c E1 E2)].
           cbn in E1, E2. injection E1 as <-. injection E2 as <-. unfold seq. apply Z0. lia.
        -- intros C i a c E1 E2. apply (C (S i) a c E1 E2).
Qed.

Lemma have_missing_spec : forall ovf g, g_packets g <> [] -> Forall seq_ok (g_packets g) ->
  exists b, have_missing ovf g = Val b /\ (b = false <-> consecutive (g_packets g)).
Proof.
  intros ovf [a ps] Hne H. cbn [g_packets] in *. unfold have_missing. cbn [g_packets].
  rewrite slice_from_ok by (destruct ps; [congruence|cbn; lia]). cbn [obind]. apply any_missing_spec. exact H.
Qed.

(* summary *)
Lemma gaps_snoc : forall ps p, gaps (ps ++ [p]) =
  gaps ps + match rev ps with [] => 0 | q :: _ => seq_gap (seq p) (seq q) end.
Proof.
  induction ps as [|q ps IH]; intro p; [reflexivity|].
  destruct ps as [|r ps].
  - cbn. lia.
  - change ((q :: r :: ps) ++ [p]) with (q :: r :: (ps ++ [p])).
    change (gaps (q :: r :: ps ++ [p])) with (seq_gap (seq r) (seq q) + gaps ((r :: ps) ++ [p])).
    rewrite IH. change (gaps (q :: r :: ps)) with (seq_gap (seq r) (seq q) + gaps (r :: ps)).
    cbn [rev]. destruct (rev ps ++ [r]) eqn:E.
    + destruct (rev ps); discriminate.
    + cbn. lia.
Qed.
Lemma of_apid_snoc : forall a ps p, of_apid a (ps ++ [p]) = of_apid a ps ++ (if apid_of p =? a then [p] else []).
Proof. intros. unfold of_apid. rewrite filter_app. reflexivity. Qed.
Lemma bytes_of_app : forall a b, bytes_of (a ++ b) = bytes_of a + bytes_of b.
Proof. intros. unfold bytes_of. induction a; cbn; [reflexivity|]. rewrite IHa. lia. Qed.

Definition summary_of (ps : list packet) : apid_summary :=
  mkApidSummary (N.of_nat (length ps)) (bytes_of ps) (gaps ps).

Record sum_inv (ps : list packet) (s : summary) : Prop := {
  si_count : s_count s = N.of_nat (length ps);
  si_bytes : s_bytes s = bytes_of ps;
  si_nodup : NoDup (map fst (s_apids s));
  si_apids : forall a, aget a (s_apids s) =
    match of_apid a ps with [] => None | l => Some (summary_of l) end;
  si_seen : forall a, aget a (s_seen s) =
    match rev (of_apid a ps) with [] => None | p :: _ => Some (p_header p) end;
  si_missing : s_missing s = fold_right N.add 0 (map (fun x => as_missing (snd x)) (s_apids s)) }.

Lemma sum_aset : forall (f : apid_summary -> N) a v m,
  NoDup (map fst m) ->
  fold_right N.add 0 (map (fun x => f (snd x)) (aset a v m)) + match aget a m with Some o => f o | None => 0 end
  = fold_right N.add 0 (map (fun x => f (snd x)) m) + f v.
Proof.
  intros f a v m ND. induction m as [|[k o] m IH]; cbn; [lia|].
  inversion ND; subst. destruct (N.eqb_spec a k); cbn; [lia|]. specialize (IH H2). lia.
Qed.

Lemma summary_step : forall ovf ps s p, Forall seq_ok ps -> seq_ok p -> sum_inv ps s ->
  exists s', summary_add ovf s p = Val s' /\ sum_inv (ps ++ [p]) s'.
Proof.
  intros ovf ps s p Hps Hp I. unfold summary_add.
  set (a := apid (p_header p)). fold (apid_of p) in a.
  set (miss := match rev (of_apid a ps) with [] => 0 | q :: _ => seq_gap (seq p) (seq q) end).
  assert (M : match aget a (s_seen s) with
    | Some last => missing_packets ovf (sequence_id (p_header p)) (sequence_id last)
    | None => Val 0 end = Val miss).
  { rewrite (si_seen _ _ I). unfold miss. destruct (rev (of_apid a ps)) as [|q l] eqn:E; [reflexivity|].
    apply missing_packets_gap; [exact Hp|].
    assert (In q (of_apid a ps)) by (rewrite in_rev, E; left; reflexivity).
    unfold of_apid in H. apply filter_In in H. destruct H as [H _].
    rewrite Forall_forall in Hps. apply (Hps q H). }
  rewrite M. cbn [obind]. eexists. split; [reflexivity|].
  set (old := match aget a (s_apids s) with Some x => x | None => apid_summary0 end).
  assert (OLD : old = summary_of (of_apid a ps)).
  { unfold old. rewrite (si_apids _ _ I). destruct (of_apid a ps); reflexivity. }
  assert (NEW : {| as_count := as_count old + 1; as_bytes := as_bytes old + N.of_nat (length (p_data p));
       as_missing := as_missing old + miss |} = summary_of (of_apid a ps ++ [p])).
  { rewrite OLD. unfold summary_of. cbn [as_count as_bytes as_missing].
    rewrite app_length, bytes_of_app, gaps_snoc. fold miss. f_equal; cbn; lia. }
  split; cbn [s_count s_bytes s_missing s_apids s_seen].
  - rewrite (si_count _ _ I), app_length. cbn. lia.
  - rewrite (si_bytes _ _ I), bytes_of_app. cbn. lia.
  - apply nodup_aset. apply (si_nodup _ _ I).
  - intro b. rewrite aget_aset, of_apid_snoc. fold a. rewrite N.eqb_sym. destruct (N.eqb_spec a b).
    + subst b. rewrite NEW. destruct (of_apid a ps ++ [p]) eqn:E; [destruct (of_apid a ps); discriminate|]. reflexivity.
    + rewrite app_nil_r. apply (si_apids _ _ I).
  - intro b. rewrite aget_aset, of_apid_snoc. fold a. rewrite N.eqb_sym. destruct (N.eqb_spec a b).
    + subst b. rewrite rev_app_distr. reflexivity.
    + rewrite app_nil_r. apply (si_seen _ _ I).
  - assert (X := sum_aset as_missing a {| as_count := as_count old + 1; as_bytes := as_bytes old + N.of_nat (length (p_data p));
       as_missing := as_missing old + miss |} (s_apids s) (si_nodup _ _ I)).
    fold old in X. cbn [as_missing] in X.
    assert (match aget a (s_apids s) with Some o => as_missing o | None => 0 end = as_missing old).
    { unfold old. destruct (aget a (s_apids s)); reflexivity. }
    rewrite H in X. rewrite (si_missing _ _ I). fold (apid_of p). change (apid_of p) with a. clearbody a old miss. lia.
Qed.

Lemma sum_inv0 : sum_inv [] summary0.
Proof. split; try reflexivity. constructor. Qed.

Lemma summary_all : forall ovf ps done s, Forall seq_ok (done ++ ps) -> sum_inv done s ->
  exists s', summary_add_all ovf s ps = Val s' /\ sum_inv (done ++ ps) s'.
Proof.
  intros ovf ps. induction ps as [|p ps IH]; intros done s H I.
  - exists s. rewrite app_nil_r. auto.
  - apply Forall_app in H. destruct H as [H1 H2]. inversion H2; subst.
    destruct (summary_step ovf done s p H1 H3 I) as (s1 & E & I1).
    cbn [summary_add_all]. rewrite E. cbn [obind].
    destruct (IH (done ++ [p]) s1) as (s2 & E2 & I2).
    + rewrite <- app_assoc. apply Forall_app. split; auto.
    + exact I1.
    + exists s2. split; [exact E2|]. rewrite <- app_assoc in I2. exact I2.
Qed.

Lemma complete_spec : forall ovf g, Forall seq_ok (g_packets g) ->
  exists b, complete ovf g = Val b /\
  (b = true <->
    (exists p, g_packets g = [p] /\ sequence_flags (p_header p) = 3) \/
    (exists f mid l, g_packets g = f :: mid ++ [l] /\ sequence_flags (p_header f) = 1 /\
       sequence_flags (p_header l) = 2 /\ consecutive (g_packets g))).
Proof.
  intros ovf [a ps] H. cbn [g_packets] in *. unfold complete. cbn [g_packets].
  destruct ps as [|p ps].
  - exists false. split; [reflexivity|]. split; [discriminate|]. intros [(p & E & _)|(f & m & l & E & _)]; discriminate.
  - destruct ps as [|q ps].
    + exists (is_standalone p). split; [reflexivity|]. unfold is_standalone, SEQ_UNSEGMENTED. rewrite N.eqb_eq. split.
      * intro E. left. exists p. auto.
      * intros [(p' & E & F)|(f & m & l & E & _)]; [congruence|]. destruct m; discriminate.
    + destruct (@exists_last _ (q :: ps) ltac:(discriminate)) as (mid & l & E).
      assert (G : get (p :: q :: ps) (length (p :: q :: ps) - 1) = Val l).
      { rewrite E. apply get_some. replace (length (p :: mid ++ [l]) - 1)%nat with (S (length mid)) by (cbn; rewrite app_length; cbn; lia).
        cbn. rewrite nth_error_app2, Nat.sub_diag by lia. reflexivity. }
      destruct (have_missing_spec ovf (mkGroup a (p :: q :: ps)) ltac:(discriminate) H) as (m & EM & SM). cbn [g_packets] in SM.
      rewrite G. cbn [obind]. rewrite EM. cbn [obind]. unfold is_first, is_last, SEQ_FIRST, SEQ_LAST.
      assert (X : forall f m' l', p :: q :: ps = f :: m' ++ [l'] -> f = p /\ l' = l).
      { intros f m' l' E'. injection E' as -> E'. rewrite E in E'. apply app_inj_tail in E'. intuition congruence. }
      destruct (N.eqb_spec (sequence_flags (p_header p)) 1); [destruct (N.eqb_spec (sequence_flags (p_header l)) 2)|].
      * exists (negb m). split; [reflexivity|]. split.
        -- intro. right. exists p, mid, l. split; [congruence|]. split; [assumption|]. split; [assumption|]. apply SM. destruct m; [discriminate|reflexivity].
        -- intros [(p' & E' & _)|(f & m' & l' & E' & _ & _ & C)]; [discriminate|]. apply SM in C. subst. reflexivity.
      * exists false. split; [reflexivity|]. split; [discriminate|].
        intros [(p' & E' & _)|(f & m' & l' & E' & F1 & F2 & C)]; [discriminate|]. apply X in E'. destruct E'; subst; contradiction.
      * exists false. split; [reflexivity|]. split; [discriminate|].
        intros [(p' & E' & _)|(f & m' & l' & E' & F1 & F2 & C)]; [discriminate|]. apply X in E'. destruct E'; subst; contradiction.
Qed.

Lemma consecutive_join : forall xs a b ys, consecutive (xs ++ [a]) -> consecutive (b :: ys) ->
  seq b = (seq a + 1) mod 16384 -> consecutive ((xs ++ [a]) ++ b :: ys).
Proof.
  intros xs a b ys C1 C2 J i p q E1 E2.
  assert (L : length (xs ++ [a]) = S (length xs)) by (rewrite app_length; cbn; lia).
  destruct (Nat.lt_ge_cases (S i) (length (xs ++ [a]))).
  - rewrite nth_error_app1 in E1, E2 by lia. apply (C1 i); assumption.
  - destruct (Nat.eq_dec i (length xs)) as [->|].
    + rewrite nth_error_app1, nth_error_app2, Nat.sub_diag in E1 by lia. injection E1 as <-.
      rewrite nth_error_app2 in E2 by lia. rewrite L, Nat.sub_diag in E2. injection E2 as <-. exact J.
    + rewrite nth_error_app2 in E1 by lia. rewrite nth_error_app2 in E2 by lia.
      apply (C2 (i - length (xs ++ [a]))%nat); [exact E1|].
      replace (S (i - length (xs ++ [a]))) with (S i - length (xs ++ [a]))%nat by lia. exact E2.
Qed.
