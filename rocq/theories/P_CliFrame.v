(* Property C53: the framing command *)
From Coq Require Import Permutation Sorted.
From Verif Require Import Base S_Framing S_Bits S_Packet S_ReedSolomon M_Reader M_Packet M_Bytes M_Sync M_Pn M_Frame M_ReedSolomon M_RsPipeline M_Pipeline
  L_Base L_Pn L_ReedSolomon L_RsPipeline L_Pipeline M_Cli S_Cli P_Pn P_Sync P_Frame P_ReedSolomon P_RsPipeline P_CliInfo.
Open Scope N_scope.

Definition on_vcid (v : N) (f : frame) : bool := v_vcid (f_header f) =? v.

Lemma sumN_snoc : forall l x, sumN (l ++ [x]) = sumN l + x.
Proof. unfold sumN. induction l as [|a l IH]; intro x; cbn; [lia|]. cbn in IH. rewrite IH. lia. Qed.
Lemma count_snoc : forall l fs f, count_integrity l (fs ++ [f]) = count_integrity l fs + if in_dec integrity_dec (f_integrity f) l then 1 else 0.
Proof. intros. unfold count_integrity. rewrite filter_app, app_length. cbn [filter]. destruct (in_dec integrity_dec (f_integrity f) l); cbn [length]; lia. Qed.
Lemma tallies_snoc : forall fs i f, tallies fs i -> tallies (fs ++ [f]) (finfo_add i f).
Proof.
  intros fs i f (A & B & C & D & E & F & G & H). unfold tallies. rewrite app_length, !map_app, !count_snoc. cbn [map]. rewrite !sumN_snoc.
  unfold finfo_add. cbn [fi_total_frames fi_total_bytes fi_missing fi_ok fi_corrected fi_uncorrectable fi_error fi_not_performed length].
  rewrite A, B, C, D, E, F, G, H. destruct (f_integrity f) as [[]|]; cbn; repeat split; lia.
Qed.
Lemma tallies_nil : tallies [] finfo0.
Proof. repeat split. Qed.

Lemma mem_In : forall a l, mem a l = true <-> In a l.
Proof.
  intros. unfold mem. rewrite existsb_exists. split; [intros (x & I & E); apply N.eqb_eq in E; subst; exact I|].
  intro I. exists a. split; [exact I|apply N.eqb_refl].
Qed.
Lemma mem_nIn : forall a l, mem a l = false <-> ~ In a l.
Proof. intros. rewrite <- mem_In. destruct (mem a l); split; congruence. Qed.
Lemma selected_chosen : forall kf inc exc f, frame_selected kf inc exc f = true <-> chosen kf inc exc f.
Proof.
  intros. unfold frame_selected, chosen, wanted, frame_is_fill. change VCID_FILL with 63. destruct (N.eqb_spec (v_vcid (f_header f)) 63) as [E|E].
  - destruct kf; cbn [negb andb]; [|split; [discriminate|intros [X _]; destruct (X eq_refl E)]].
    destruct inc as [|x inc]; cbn [is_nil negb andb].
    + destruct exc; cbn [is_nil negb andb]; [split; auto; repeat split; auto; discriminate|].
      destruct (mem _ _) eqn:M; [apply mem_In in M|apply mem_nIn in M]; split; try discriminate; try tauto. intros _. split; [discriminate|tauto].
    + destruct (mem _ (x :: inc)) eqn:M1; [apply mem_In in M1|apply mem_nIn in M1]; cbn [negb].
      * destruct exc; cbn [is_nil negb andb]; [split; auto; repeat split; auto; discriminate|].
        destruct (mem _ (_ :: exc)) eqn:M; [apply mem_In in M|apply mem_nIn in M]; split; try discriminate; try tauto. intros _. split; [discriminate|tauto].
      * split; [discriminate|]. intros (_ & [X|X] & _); [discriminate|contradiction].
  - cbn [andb]. destruct inc as [|x inc]; cbn [is_nil negb andb].
    + destruct exc; cbn [is_nil negb andb]; [split; auto|].
      destruct (mem _ _) eqn:M; [apply mem_In in M|apply mem_nIn in M]; split; try discriminate; try tauto.
    + destruct (mem _ (x :: inc)) eqn:M1; [apply mem_In in M1|apply mem_nIn in M1]; cbn [negb].
      * destruct exc; cbn [is_nil negb andb]; [split; auto|].
        destruct (mem _ (_ :: exc)) eqn:M; [apply mem_In in M|apply mem_nIn in M]; split; try discriminate; try tauto.
      * split; [discriminate|]. intros (_ & [X|X] & _); [discriminate|contradiction].
Qed.
Lemma written_usable : forall f, frame_written f = true <-> usable f.
Proof.
  intro f. unfold frame_written, usable. destruct (f_integrity f) as [[]|]; split; auto; try discriminate;
    intros [X|[X|X]]; discriminate.
Qed.
Lemma kept_filter : forall A (P : A -> Prop) (b : A -> bool), (forall x, b x = true <-> P x) -> forall l, kept P l (filter b l).
Proof.
  intros A P b H l. induction l as [|x l IH]; cbn [filter]; [constructor|]. destruct (b x) eqn:E.
  - constructor; [apply H; exact E|exact IH].
  - apply kept_no; [rewrite <- H; congruence|exact IH].
Qed.
Lemma kept_unique : forall A (P : A -> Prop) l k k', kept P l k -> kept P l k' -> k = k'.
Proof. intros A P l k k' H. revert k'. induction H; intros k' H'; inversion H'; subst; try contradiction; f_equal; auto. Qed.

Record finv (len : nat) (has_output : bool) (fs : list frame) (s : fcmd) : Prop := {
  fv_all : tallies fs (fc_all s);
  fv_nodup : NoDup (map fst (fc_vcids s));
  fv_keys : forall v, In v (map fst (fc_vcids s)) <-> filter (on_vcid v) fs <> [];
  fv_rows : forall v i, aget v (fc_vcids s) = Some i -> tallies (filter (on_vcid v) fs) i;
  fv_out : fc_out s = if has_output then concat (map (fun f => firstn len (f_data f)) (filter frame_written fs)) else [] }.
Lemma keys_aget : forall V (k : N) (m : amap V), In k (map fst m) <-> aget k m <> None.
Proof.
  intros V k m. induction m as [|[a v] m IH]; cbn; [split; [intros []|congruence]|]. rewrite N.eqb_sym. destruct (N.eqb_spec a k) as [->|NE].
  - split; [discriminate|auto].
  - rewrite <- IH. split; [intros [C|C]; [contradiction|exact C]|auto].
Qed.
Lemma finv_step : forall len ho fs s f, finv len ho fs s ->
  forall out, out = (if ho then concat (map (fun f => firstn len (f_data f)) (filter frame_written (fs ++ [f]))) else []) ->
  finv len ho (fs ++ [f])
    (mkFcmd (finfo_add (fc_all s) f)
            (aset (v_vcid (f_header f)) (finfo_add (match aget (v_vcid (f_header f)) (fc_vcids s) with Some i => i | None => finfo0 end) f) (fc_vcids s)) out).
Proof.
  intros len ho fs s f I out HO. set (v := v_vcid (f_header f)). set (old := match aget v (fc_vcids s) with Some i => i | None => finfo0 end).
  assert (OLD : tallies (filter (on_vcid v) fs) old).
  { unfold old. destruct (aget v (fc_vcids s)) as [i|] eqn:E; [apply (fv_rows _ _ _ _ I); exact E|].
    destruct (filter (on_vcid v) fs) eqn:Q; [apply tallies_nil|]. exfalso.
    assert (X : In v (map fst (fc_vcids s))) by (apply (fv_keys _ _ _ _ I); rewrite Q; discriminate). apply keys_aget in X. contradiction. }
  split; cbn [fc_all fc_vcids fc_out].
  - apply tallies_snoc, (fv_all _ _ _ _ I).
  - apply nodup_aset, (fv_nodup _ _ _ _ I).
  - intro w. rewrite keys_aset, filter_app. cbn [filter]. unfold on_vcid at 2. fold v. destruct (N.eqb_spec v w) as [->|NE].
    + split; [|auto]. intros _ C. apply app_eq_nil in C. destruct C; discriminate.
    + rewrite app_nil_r, (fv_keys _ _ _ _ I). split; [intros [C|C]; [congruence|exact C]|auto].
  - intros w i. rewrite aget_aset, filter_app. cbn [filter]. unfold on_vcid at 2. fold v. rewrite N.eqb_sym. destruct (N.eqb_spec v w) as [->|NE].
    + intro E. injection E as <-. apply tallies_snoc. exact OLD.
    + rewrite app_nil_r. apply (fv_rows _ _ _ _ I).
  - exact HO.
Qed.
Definition bad_frame (len : nat) (ho : bool) (f : frame) : Prop := ho = true /\ frame_written f = true /\ (length (f_data f) < len)%nat.
Lemma frame_loop_ok : forall len kf inc exc ho frames fs s, finv len ho fs s ->
  (Forall (fun f => ~ bad_frame len ho f) (filter (frame_selected kf inc exc) frames) /\
   exists s', frame_loop len kf inc exc ho frames s = Val s' /\ finv len ho (fs ++ filter (frame_selected kf inc exc) frames) s') \/
  (Exists (bad_frame len ho) (filter (frame_selected kf inc exc) frames) /\ frame_loop len kf inc exc ho frames s = Panic).
Proof.
  intros len kf inc exc ho frames. induction frames as [|f frames IH]; intros fs s I; cbn [frame_loop filter].
  - left. split; [constructor|]. exists s. rewrite app_nil_r. auto.
  - destruct (frame_selected kf inc exc f) eqn:SE; cbn [negb]; [|apply IH; exact I].
    assert (GO : forall out, ~ bad_frame len ho f -> out = (if ho then concat (map (fun f => firstn len (f_data f)) (filter frame_written (fs ++ [f]))) else []) ->
      let s1 := mkFcmd (finfo_add (fc_all s) f)
            (aset (v_vcid (f_header f)) (finfo_add (match aget (v_vcid (f_header f)) (fc_vcids s) with Some i => i | None => finfo0 end) f) (fc_vcids s)) out in
      (Forall (fun f => ~ bad_frame len ho f) (f :: filter (frame_selected kf inc exc) frames) /\
       exists s', frame_loop len kf inc exc ho frames s1 = Val s' /\ finv len ho (fs ++ f :: filter (frame_selected kf inc exc) frames) s') \/
      (Exists (bad_frame len ho) (f :: filter (frame_selected kf inc exc) frames) /\ frame_loop len kf inc exc ho frames s1 = Panic)).
    { intros out NB HO s1. destruct (IH (fs ++ [f]) s1 (finv_step len ho fs s f I out HO)) as [(A & s' & B & C)|(A & B)].
      - left. split; [constructor; assumption|]. exists s'. split; [exact B|]. rewrite <- app_assoc in C. exact C.
      - right. split; [right; exact A|exact B]. }
    destruct (negb (frame_written f) || negb ho) eqn:W.
    + apply GO.
      * intros (X & Y & _). rewrite X, Y in W. discriminate.
      * rewrite (fv_out _ _ _ _ I). destruct ho; [|reflexivity]. rewrite orb_false_r in W. apply negb_true_iff in W.
        rewrite filter_app. cbn [filter]. rewrite W, app_nil_r. reflexivity.
    + apply orb_false_iff in W. destruct W as [W H1]. apply negb_false_iff in W, H1. subst ho.
      destruct (Nat.le_gt_cases len (length (f_data f))) as [L|L].
      * rewrite slice0 by exact L. cbn [obind]. apply GO; [intros (_ & _ & X); lia|].
        rewrite (fv_out _ _ _ _ I), filter_app, map_app, concat_app. cbn [filter]. rewrite W. cbn [map concat]. rewrite app_nil_r. reflexivity.
      * right. split; [left; split; auto|]. unfold slice. replace (len <=? length (f_data f))%nat with false by (symmetry; apply Nat.leb_gt; exact L).
        rewrite andb_false_r. reflexivity.
Qed.

Lemma finv_init : forall len ho, finv len ho [] (mkFcmd finfo0 [] []).
Proof.
  intros len ho. split; cbn [fc_all fc_vcids fc_out map].
  - apply tallies_nil.
  - constructor.
  - intro v. cbn. split; [intros []|]. intro C. destruct (C eq_refl).
  - discriminate.
  - destruct ho; reflexivity.
Qed.

(* ---- C53 ---- *)
(* The frames are any list, in particular what the pipeline yields. One row per virtual channel seen. *)
Theorem C53_report : forall len keep_fill include exclude has_output frames sel,
  kept (chosen keep_fill include exclude) frames sel ->
  (has_output = true -> Forall (fun f => usable f -> len <= length (f_data f))%nat sel) ->
  exists all rows out, frame_cmd len keep_fill include exclude has_output frames = Val (all, rows, out) /\
    tallies sel all /\
    StronglySorted N.lt (map fst rows) /\
    (forall v, In v (map fst rows) <-> exists f, In f sel /\ v_vcid (f_header f) = v) /\
    (forall v i, In (v, i) rows -> tallies (filter (fun f => v_vcid (f_header f) =? v) sel) i) /\
    exists good, kept usable sel good /\
      out = if has_output then concat (map (fun f => firstn len (f_data f)) good) else [].
Proof.
  intros len kf inc exc ho frames sel K HL.
  assert (sel = filter (frame_selected kf inc exc) frames) by (eapply kept_unique; [exact K|apply kept_filter, selected_chosen]).
  destruct (frame_loop_ok len kf inc exc ho frames [] (mkFcmd finfo0 [] [])) as [(_ & s & E & I)|(B & _)].
  { apply finv_init. }
  - cbn [app] in I. rewrite <- H in I. unfold frame_cmd. rewrite E. cbn [obind]. do 3 eexists. split; [reflexivity|].
    assert (P := apid_sort_perm _ (fc_vcids s)).
    split; [apply (fv_all _ _ _ _ I)|]. split; [apply apid_sort_sorted, (fv_nodup _ _ _ _ I)|]. split; [|split].
    + intro v. rewrite <- (Permutation_map fst P), (fv_keys _ _ _ _ I). split.
      * intro N. destruct (filter (on_vcid v) sel) as [|f l] eqn:Q; [contradiction|]. exists f.
        assert (X : In f (filter (on_vcid v) sel)) by (rewrite Q; left; reflexivity). apply filter_In in X. destruct X as [X Y]. apply N.eqb_eq in Y. auto.
      * intros (f & If & Ef) N. assert (X : In f (filter (on_vcid v) sel)) by (apply filter_In; split; [exact If|apply N.eqb_eq; exact Ef]). rewrite N in X. destruct X.
    + intros v i X. apply (Permutation_in _ (Permutation_sym P)) in X. apply (fv_rows _ _ _ _ I). apply aget_nodup; [apply (fv_nodup _ _ _ _ I)|exact X].
    + exists (filter frame_written sel). split; [apply kept_filter, written_usable|apply (fv_out _ _ _ _ I)].
  - exfalso. rewrite <- H in B. apply Exists_exists in B. destruct B as (f & X & Y1 & Y2 & Y3). specialize (HL Y1). rewrite Forall_forall in HL.
    apply written_usable in Y2. specialize (HL f X Y2). lia.
Qed.
Print Assumptions C53_report.

Lemma count_parts : forall fs, N.of_nat (length fs) =
  count_integrity [Some IOk] fs + count_integrity [Some ICorrected] fs + count_integrity [Some IUncorrectable; Some INotCorrected] fs +
  count_integrity [Some IFailed] fs + count_integrity [None] fs.
Proof.
  induction fs as [|f fs IH] using rev_ind; [reflexivity|]. rewrite app_length, !count_snoc. cbn [length].
  destruct (f_integrity f) as [[]|]; cbn [in_dec integrity_dec]; cbn; lia.
Qed.
(* The classes add up, in the summary and in each row, and each number of the summary is the sum over the rows. *)
Theorem C53_totals : forall len keep_fill include exclude has_output frames all rows out,
  frame_cmd len keep_fill include exclude has_output frames = Val (all, rows, out) ->
  Forall (fun i => fi_total_frames i = fi_ok i + fi_corrected i + fi_uncorrectable i + fi_error i + fi_not_performed i)
    (all :: map snd rows) /\
  Forall (fun get : finfo -> N => get all = sumN (map get (map snd rows)))
    [fi_total_frames; fi_total_bytes; fi_missing; fi_ok; fi_corrected; fi_uncorrectable; fi_error; fi_not_performed].
Proof.
  intros len kf inc exc ho frames all rows out H.
  assert (PART : forall fs i, tallies fs i -> fi_total_frames i = fi_ok i + fi_corrected i + fi_uncorrectable i + fi_error i + fi_not_performed i).
  { intros fs i (A & _ & _ & D & E & F & G & I). rewrite A, D, E, F, G, I, (count_parts fs). lia. }
  assert (SUM : forall frames s s', 
    Forall (fun get : finfo -> N => get (fc_all s) = sumN (map get (map snd (fc_vcids s)))) [fi_total_frames; fi_total_bytes; fi_missing; fi_ok; fi_corrected; fi_uncorrectable; fi_error; fi_not_performed] ->
    frame_loop len kf inc exc ho frames s = Val s' ->
    Forall (fun get : finfo -> N => get (fc_all s') = sumN (map get (map snd (fc_vcids s')))) [fi_total_frames; fi_total_bytes; fi_missing; fi_ok; fi_corrected; fi_uncorrectable; fi_error; fi_not_performed]).
  { clear. assert (AS : forall (get : finfo -> N) v x m, sumN (map get (map snd (aset v x m))) + match aget v m with Some o => get o | None => 0 end = sumN (map get (map snd m)) + get x).
    { intros get v x m. unfold sumN. induction m as [|[k o] m IH]; cbn; [lia|]. destruct (N.eqb_spec v k); cbn; [lia|]. cbn in IH. lia. }
    assert (STEP : forall f s out, Forall (fun get : finfo -> N => get (fc_all s) = sumN (map get (map snd (fc_vcids s)))) [fi_total_frames; fi_total_bytes; fi_missing; fi_ok; fi_corrected; fi_uncorrectable; fi_error; fi_not_performed] ->
      Forall (fun get : finfo -> N => get (fc_all (mkFcmd (finfo_add (fc_all s) f)
            (aset (v_vcid (f_header f)) (finfo_add (match aget (v_vcid (f_header f)) (fc_vcids s) with Some i => i | None => finfo0 end) f) (fc_vcids s)) out))
         = sumN (map get (map snd (fc_vcids (mkFcmd (finfo_add (fc_all s) f)
            (aset (v_vcid (f_header f)) (finfo_add (match aget (v_vcid (f_header f)) (fc_vcids s) with Some i => i | None => finfo0 end) f) (fc_vcids s)) out))))) [fi_total_frames; fi_total_bytes; fi_missing; fi_ok; fi_corrected; fi_uncorrectable; fi_error; fi_not_performed]).
    { intros f s out HF. cbn [fc_all fc_vcids]. set (v := v_vcid (f_header f)). set (old := match aget v (fc_vcids s) with Some i => i | None => finfo0 end).
      assert (OLD : forall get : finfo -> N, get finfo0 = 0 -> sumN (map get (map snd (aset v (finfo_add old f) (fc_vcids s)))) + get old = sumN (map get (map snd (fc_vcids s))) + get (finfo_add old f)).
      { intros get Z. assert (X := AS get v (finfo_add old f) (fc_vcids s)). unfold old in *. destruct (aget v (fc_vcids s)); [exact X|]. rewrite Z. exact X. }
      repeat match goal with H : Forall _ (_ :: _) |- _ => inversion H; clear H; subst end.
      repeat constructor; match goal with |- ?g _ = _ => assert (X := OLD g eq_refl) end;
        repeat match goal with H : ?g (fc_all s) = _ |- _ => rewrite <- H in X end; revert X; unfold finfo_add;
        cbn [fi_total_frames fi_total_bytes fi_missing fi_ok fi_corrected fi_uncorrectable fi_error fi_not_performed];
        destruct (f_integrity f) as [[]|]; cbn [orb is_none]; lia. }
    induction frames as [|f frames IH]; intros s s' I E; cbn [frame_loop] in E.
    - injection E as <-. exact I.
    - destruct (negb (frame_selected kf inc exc f)); [eapply IH; [exact I|exact E]|].
      destruct (negb (frame_written f) || negb ho); [eapply IH; [|exact E]; apply STEP; exact I|].
      destruct (slice (f_data f) 0 len) as [d|]; [|discriminate]. cbn [obind] in E. eapply IH; [|exact E]; apply STEP; exact I. }
  unfold frame_cmd in H.
  destruct (frame_loop_ok len kf inc exc ho frames [] (mkFcmd finfo0 [] [])) as [(_ & s & E & I)|(_ & B)].
  { apply finv_init. }
  2: { rewrite B in H. discriminate. }
  rewrite E in H. cbn [obind] in H. injection H as <- <- <-. assert (P := apid_sort_perm _ (fc_vcids s)). split.
  - constructor; [eapply PART, (fv_all _ _ _ _ I)|]. apply (Permutation_Forall (Permutation_map snd P)). apply Forall_map, Forall_forall.
    intros [v i] X. eapply PART. apply (fv_rows _ _ _ _ I). apply aget_nodup; [apply (fv_nodup _ _ _ _ I)|exact X].
  - assert (X := SUM frames (mkFcmd finfo0 [] []) s ltac:(repeat constructor) E).
    eapply Forall_impl; [|exact X]. cbn. intros get ->. apply (Permutation_map snd) in P. apply (Permutation_map get) in P. clear -P. unfold sumN.
    induction P; cbn; lia.
Qed.
Print Assumptions C53_totals.

(* the panic: an output file, and a frame to be written that is shorter than the length asked for *)
Theorem C53_panics_iff : forall len keep_fill include exclude has_output frames,
  frame_cmd len keep_fill include exclude has_output frames = Panic <->
  has_output = true /\ exists f, In f frames /\ chosen keep_fill include exclude f /\ usable f /\ (length (f_data f) < len)%nat.
Proof.
  intros len kf inc exc ho frames. unfold frame_cmd.
  destruct (frame_loop_ok len kf inc exc ho frames [] (mkFcmd finfo0 [] [])) as [(A & s & E & I)|(B & E)].
  { apply finv_init. }
  - rewrite E. cbn [obind]. split; [discriminate|]. intros (H1 & f & If & H2 & H3 & H4). exfalso. rewrite Forall_forall in A. apply (A f).
    + apply filter_In. split; [exact If|]. apply selected_chosen. exact H2.
    + split; [exact H1|]. split; [apply written_usable; exact H3|exact H4].
  - rewrite E. cbn [obind]. split; [|reflexivity]. intros _. apply Exists_exists in B. destruct B as (f & X & Y1 & Y2 & Y3). split; [exact Y1|].
    exists f. apply filter_In in X. destruct X as [X1 X2]. split; [exact X1|]. split; [apply selected_chosen; exact X2|]. split; [apply written_usable; exact Y2|exact Y3].
Qed.
Print Assumptions C53_panics_iff.

Lemma perform_length : forall k c block integ data, codec_ok k -> (1 <= rs_interleave c)%nat -> rs_parity_len c = 32%nat -> rs_remove_parity c = true ->
  perform k c block = Val (Ok (integ, data)) -> integ = IOk \/ integ = ICorrected ->
  length data = (length block - 32 * rs_interleave c)%nat.
Proof.
  intros k c block integ data HK HI HP HRP E HX.
  assert (HD : right_length c block \/ ~ right_length c block) by (unfold right_length; lia).
  destruct HD as [HR|HR]; [|rewrite perform_wrong in E by exact HR; discriminate].
  destruct (first_stop k c (codewords (rs_interleave c) (filled c block))) as [A|(p & w & q & HW & A & B)].
  - rewrite perform_all in E; try assumption; try lia; [|eapply ok_answers; [exact HK|apply words_255|exact A]].
    rewrite HRP in E. destruct (_ <=? _)%nat eqn:L; [|discriminate]. apply Nat.leb_le in L.
    assert (D : data = skipn (rs_virtual_fill c) (firstn (223 * rs_interleave c) (interleaved (rs_interleave c) (map (message_of k) (codewords (rs_interleave c) (filled c block)))))) by congruence.
    rewrite firstn_length, interleaved_length in L. rewrite D, skipn_length, firstn_length, interleaved_length. unfold right_length in HR. lia.
  - exfalso. assert (W5 := words_255 (rs_interleave c) (filled c block)). rewrite HW in W5. apply Forall_app in W5.
    rewrite (perform_stops k c block p w q) in E; try assumption; try lia; [|eapply ok_answers; [exact HK|apply W5|exact A]].
    destruct (negb (rs_correct c) && has_errors k w); destruct HX; subst; discriminate.
Qed.

Lemma frame_pipeline_is : forall len pn rs detect correct vfill threads bufsize,
  frame_pipeline len pn rs detect correct vfill threads bufsize =
  mkPipeline pn
    (match rs with
     | None => None
     | Some i => Some (mkRsOpts i vfill (match threads with Some n => n | None => 0%nat end) bufsize (detect || correct) correct)
     end)
    (len + 32 * match rs with Some i => i | None => 0%nat end)%nat.
Proof.
  intros. unfold frame_pipeline. destruct pn, rs as [i|], threads as [n|]; cbn [negb]; try reflexivity;
    (destruct (Nat.eqb_spec vfill 0) as [->|_]; reflexivity).
Qed.

(* On the pipeline the command builds: every frame to be written has at least len bytes, exactly len unless it
   is a fill frame under Reed-Solomon, so the command returns; it then writes len bytes per usable frame. *)
Theorem C53_pipeline : forall ovf k nthreads r len pn rs detect correct vfill threads bufsize frames,
  codec_ok k -> match rs with Some i => (1 <= i)%nat | None => True end ->
  pipeline_start ovf k nthreads (frame_pipeline len pn rs detect correct vfill threads bufsize) r frames ->
  Forall (fun f => usable f ->
     (len <= length (f_data f))%nat /\
     (rs = None \/ v_vcid (f_header f) <> 63 -> length (f_data f) = len)) frames /\
  forall keep_fill include exclude has_output sel good,
    kept (chosen keep_fill include exclude) frames sel -> kept usable sel good ->
    exists all rows out, frame_cmd len keep_fill include exclude has_output frames = Val (all, rows, out) /\
      length out = if has_output then (len * length good)%nat else 0%nat.
Proof.
  intros ovf k nt r len pn rs detect correct vfill threads bufsize frames HK HI H. rewrite frame_pipeline_is in H.
  assert (LEN : Forall (fun f => usable f ->
     (len <= length (f_data f))%nat /\
     (rs = None \/ v_vcid (f_header f) <> 63 -> length (f_data f) = len)) frames).
  { inversion H as [items blocks fs out Y1 EB Y2 HR]; subst out.
    set (bl := (len + 32 * match rs with Some i => i | None => 0 end)%nat).
    assert (HB : Forall (fun b => length (bl_data b) = bl) blocks).
    { apply C28_block_lengths in Y1; [|discriminate]. cbn [pl_block_length] in Y1. fold bl in Y1.
      assert (HO : Forall (fun b => length (bl_data b) = bl) (oks items)).
      { clear -Y1. induction items as [|[b|e] items IH]; cbn [oks]; inversion Y1; subst; auto. }
      subst blocks. destruct (pl_derandomize _); [|exact HO]. unfold derandomize. apply Forall_map. eapply Forall_impl; [|exact HO].
      cbn. intros b <-. unfold derandomize_cadu. cbn [bl_data]. apply C30_derandomize_length_bytes. }
    apply decoded_prefix in Y2. destruct Y2 as (bl1 & bl2 & EB2 & Y2). assert (HB0 := HB). rewrite EB2 in HB0. apply Forall_app in HB0. destruct HB0 as [HB1 _].
    assert (HF : Forall (fun f => length (f_data f) = bl /\ f_integrity f = None) fs).
    { clear HB. rename HB1 into HB. destruct (C33_frames ovf bl1 fs Y2) as [A _]. apply Forall_forall. intros f I. apply In_nth_error in I. destruct I as [i Ei].
      destruct (A i f Ei) as (c & Ec & D & _ & F & _). split; [|exact F]. rewrite D. rewrite Forall_forall in HB. apply HB. eapply nth_error_In. exact Ec. }
    cbn [pl_rs] in HR. destruct rs as [il|].
    - destruct HR as (s & R & _ & <-). apply Forall_forall. intros f' I U. apply In_nth_error in I. destruct I as [i Ei].
      destruct (C45_frames _ _ _ _ _ _ _ _ R Ei) as (f & Ef & A & _ & C & D). assert (If := nth_error_In _ _ Ef). rewrite Forall_forall in HF. destruct (HF f If) as [L N].
      change VCID_FILL with 63 in *. destruct (N.eq_dec (v_vcid (f_header f)) 63) as [E|E].
      + rewrite (C E). rewrite L. unfold bl. split; [lia|]. intros [X|X]; [discriminate|contradiction].
      + destruct (D E) as (integ & data & P & I1 & I2).
        assert (OKI : integ = IOk \/ integ = ICorrected).
        { unfold usable in U. rewrite I1 in U. destruct U as [U|[U|U]]; [discriminate|left|right]; congruence. }
        assert (LD := fun a b c => perform_length k _ _ _ _ HK a b c P OKI). specialize (LD HI eq_refl eq_refl). rewrite L in LD. unfold bl in LD.
        change (rs_interleave (rs_of_opts _)) with il in LD.
        assert (D2 : f_data f' = data) by (destruct OKI; subst integ; exact I2). rewrite D2, LD. split; intros; lia.
    - subst frames. eapply Forall_impl; [|exact HF]. unfold bl. cbn. intros f [L _] _. split; intros; lia. }
  split; [exact LEN|]. intros kf inc exc ho sel good K1 K2.
  assert (SUB : forall A (P : A -> Prop) l m, kept P l m -> forall x, In x m -> In x l /\ P x).
  { clear. induction 1; intros y I; [destruct I| |]; [destruct I as [<-|I]|]; [split; [left; reflexivity|assumption]| |]; destruct (IHkept y I); split; auto; right; assumption. }
  destruct (C53_report len kf inc exc ho frames sel K1) as (all & rows & out & E & _ & _ & _ & _ & good' & K3 & O).
  { intros _. apply Forall_forall. intros f I U. rewrite Forall_forall in LEN. apply LEN; [|exact U]. apply (SUB _ _ _ _ K1 f I). }
  exists all, rows, out. split; [exact E|]. rewrite (kept_unique _ _ _ _ _ K3 K2) in O. rewrite O. destruct ho; [|reflexivity].
  assert (LG : Forall (fun f => len <= length (f_data f))%nat good).
  { apply Forall_forall. intros f I. destruct (SUB _ _ _ _ K2 f I) as [I2 U]. rewrite Forall_forall in LEN. apply LEN; [|exact U]. apply (SUB _ _ _ _ K1 f I2). }
  clear -LG. induction LG as [|f fs L _ IH]; cbn [map concat length]; [lia|]. rewrite app_length, firstn_length, IH. lia.
Qed.
Print Assumptions C53_pipeline.

Definition fr (v : N) (miss : N) (i : option integrity) (d : list N) : frame := mkFrame (mkVcdu 1 7 v 0) miss i d.
Example C53_ex : frame_cmd 2 false [] [9] true
    [fr 3 0 None [1;2;3]; fr 63 0 None [0;0]; fr 9 0 (Some IOk) [7;7]; fr 1 4 (Some ICorrected) [5;6]; fr 3 1 (Some IUncorrectable) [8;9;10]; fr 1 0 (Some IFailed) []] =
  Val (mkFinfo 4 8 5 1 1 0 1 1, [(1, mkFinfo 2 2 4 1 0 0 1 0); (3, mkFinfo 2 6 1 0 1 0 0 1)], [1;2;5;6]).
Proof. vm_compute. reflexivity. Qed.
Example C53_ex_panic : frame_cmd 2 false [] [] true [fr 3 0 None [1]] = Panic.
Proof. vm_compute. reflexivity. Qed.
