(* Property C69: what diff and info print, on files *)
From Coq Require Import Permutation Sorted.
From Verif Require Import Base S_Diff S_InfoTotals S_Bits M_Reader M_Packet M_Group S_Packet S_Group L_Base L_Packet M_Merge S_Merge L_Merge M_Cli S_Cli P_CliFilter P_CliDiff P_CliInfo
  M_Timecode M_Main S_Main P_Main.
Open Scope N_scope.

(* ---- the table ---- *)

Lemma lefts_pair_true : forall l, lefts (map (pair true) l) = l.
Proof. unfold lefts. induction l; cbn; congruence. Qed.
Lemma rights_pair_true : forall l, rights (map (pair true) l) = [].
Proof. unfold rights. induction l; cbn; assumption || reflexivity. Qed.
Lemma lefts_pair_false : forall l, lefts (map (pair false) l) = [].
Proof. unfold lefts. induction l; cbn; assumption || reflexivity. Qed.
Lemma rights_pair_false : forall l, rights (map (pair false) l) = l.
Proof. unfold rights. induction l; cbn; congruence. Qed.
Lemma map_snd_pair : forall (b : bool) (l : list key), map snd (map (pair b) l) = l.
Proof. induction l; cbn; congruence. Qed.
Lemma in_minus : forall r l x, In x (only_in l r) -> In x l.
Proof.
  intros r l x H. apply (count_occ_In key_dec) in H. rewrite count_minus in H. apply (count_occ_In key_dec). lia.
Qed.
Lemma minus_absent_r : forall r x l, ~ In x r -> only_in r (x :: l) = only_in r l.
Proof. intros. cbn [minus]. rewrite remove_absent by assumption. reflexivity. Qed.
Lemma minus_same_cons : forall x l r, only_in (x :: l) (x :: r) = only_in l r.
Proof. intros. cbn [minus remove_one]. destruct (key_dec x x); [reflexivity|contradiction]. Qed.

Inductive table (l r : list key) (rows : list (bool * key)) : Prop :=
| table_all : Permutation (lefts rows) (only_in l r) -> Permutation (rights rows) (only_in r l) -> table l r rows
| table_left : forall x, swallowed l r x -> Permutation (x :: lefts rows) (only_in l r) -> Permutation (rights rows) (only_in r l) -> table l r rows
| table_right : forall x, swallowed r l x -> Permutation (lefts rows) (only_in l r) -> Permutation (x :: rights rows) (only_in r l) -> table l r rows.

Lemma rows_loop : forall fuel l r n, (length l + length r < fuel)%nat ->
  StronglySorted key_upto l -> StronglySorted key_upto r ->
  exists rows, diff_rows fuel (hd_error l) (tl l) (hd_error r) (tl r) = Some rows /\
    diff_loop fuel (hd_error l) (tl l) (hd_error r) (tl r) n = Some (n + N.of_nat (length rows)) /\
    StronglySorted key_upto (map snd rows) /\ Forall (fun k => In k l \/ In k r) (map snd rows) /\ table l r rows.
Proof.
  induction fuel as [|fuel IH]; intros l r n HF SL SR; [lia|].
  destruct l as [|x l].
  { cbn [diff_rows diff_loop hd_error tl]. eexists. split; [reflexivity|]. rewrite map_length, map_snd_pair. split; [reflexivity|].
    destruct r as [|y r]; cbn [tl].
    - split; [constructor|]. split; [constructor|]. apply table_all; constructor.
    - inversion SR as [|? ? SR' FR]; subst. split; [exact SR'|]. split; [apply Forall_forall; intros k I; right; right; exact I|].
      apply (table_right _ _ _ y).
      + split; [left; reflexivity|]. split; [intros ? []|]. cbn [minus]. intros z [<-|I] _; [right; reflexivity|]. rewrite Forall_forall in FR. apply FR. exact I.
      + rewrite lefts_pair_false, minus_nil. constructor.
      + rewrite rights_pair_false. reflexivity. }
  destruct r as [|y r].
  { cbn [diff_rows diff_loop hd_error tl]. eexists. split; [reflexivity|]. rewrite map_length, map_snd_pair. split; [reflexivity|].
    inversion SL as [|? ? SL' FL]; subst. split; [exact SL'|]. split; [apply Forall_forall; intros k I; left; right; exact I|].
    apply (table_left _ _ _ x).
    + split; [left; reflexivity|]. split; [intros ? []|]. cbn [minus]. intros z [<-|I] _; [right; reflexivity|]. rewrite Forall_forall in FL. apply FL. exact I.
    + rewrite lefts_pair_true. reflexivity.
    + rewrite rights_pair_true, minus_nil. constructor. }
  cbn [diff_rows diff_loop hd_error tl]. cbn [length] in HF.
  inversion SL as [|? ? SL' FL]; inversion SR as [|? ? SR' FR]; subst. rewrite Forall_forall in FL, FR.
  destruct (key_cmp_spec x y) as [->|L|L].
  - destruct (IH l r n) as (rows & E1 & E2 & SO & IN & T); try assumption; [lia|]. exists rows. split; [exact E1|]. split; [exact E2|]. split; [exact SO|].
    split; [eapply Forall_impl; [|exact IN]; cbn; tauto|].
    assert (SW : forall a b w, (forall z, In z a -> key_upto y z) -> swallowed a b w -> swallowed (y :: a) (y :: b) w).
    { intros a b w YA (A & B & C). unfold swallowed. rewrite minus_same_cons. split; [exact A|]. split.
      - intros z [<-|I]; [apply YA; eapply in_minus; exact A|apply B; exact I].
      - intros z I H. apply C; [exact I|]. intros q Q. apply H. right. exact Q. }
    destruct T as [A B|w W A B|w W A B]; [apply table_all|apply (table_left _ _ _ w)|apply (table_right _ _ _ w)]; rewrite ?minus_same_cons; try assumption; apply SW; assumption.
  - assert (NX : ~ In x (y :: r)).
    { intros [->|I]; [exact (klt_irrefl _ L)|]. apply (klt_irrefl x). eapply lt_kle; [exact L|]. apply FR. exact I. }
    assert (GE : forall z, In z (y :: r) -> key_below x z) by (intros z [<-|I]; [exact L|]; eapply lt_kle; [exact L|apply FR; exact I]).
    destruct (IH l (y :: r) (n + 1)) as (rows & E1 & E2 & SO & IN & T); try assumption; [cbn [length]; lia|].
    cbn [hd_error tl] in E1, E2. rewrite E1, E2. exists ((true, x) :: rows). split; [reflexivity|]. cbn [length]. split; [f_equal; lia|].
    cbn [map snd]. split; [constructor; [exact SO|]|].
    { eapply Forall_impl; [|exact IN]. cbn. intros k [I|I]; [apply FL; exact I|left; apply GE; exact I]. }
    split; [constructor; [left; left; reflexivity|]; eapply Forall_impl; [|exact IN]; cbn; tauto|].
    assert (ML : only_in (x :: l) (y :: r) = x :: only_in l (y :: r)) by (apply minus_cons_absent; exact NX).
    assert (MR : only_in (y :: r) (x :: l) = only_in (y :: r) l) by (apply minus_absent_r; exact NX).
    destruct T as [A B|w W A B|w W A B].
    + apply table_all; [rewrite ML; cbn; constructor; exact A|rewrite MR; exact B].
    + apply (table_left _ _ _ w).
      * destruct W as (W1 & W2 & W3). unfold swallowed. rewrite ML. split; [right; exact W1|]. split; [exact W2|].
        intros z [<-|I] H; [|apply W3; assumption]. exfalso. apply (klt_irrefl x). eapply lt_kle; [exact L|apply H; left; reflexivity].
      * rewrite ML. change (lefts ((true, x) :: rows)) with (x :: lefts rows). etransitivity; [apply perm_swap|]. constructor. exact A.
      * rewrite MR. exact B.
    + apply (table_right _ _ _ w).
      * destruct W as (W1 & W2 & W3). unfold swallowed. rewrite MR. split; [exact W1|]. split.
        -- intros z [<-|I]; [left; apply GE; eapply in_minus; exact W1|apply W2; exact I].
        -- intros z I H. apply W3; [exact I|]. intros q Q. apply H. right. exact Q.
      * rewrite ML. cbn. constructor. exact A.
      * rewrite MR. exact B.
  - assert (NY : ~ In y (x :: l)).
    { intros [->|I]; [exact (klt_irrefl _ L)|]. apply (klt_irrefl y). eapply lt_kle; [exact L|]. apply FL. exact I. }
    assert (GE : forall z, In z (x :: l) -> key_below y z) by (intros z [<-|I]; [exact L|]; eapply lt_kle; [exact L|apply FL; exact I]).
    destruct (IH (x :: l) r (n + 1)) as (rows & E1 & E2 & SO & IN & T); try assumption; [cbn [length]; lia|].
    cbn [hd_error tl] in E1, E2. rewrite E1, E2. exists ((false, y) :: rows). split; [reflexivity|]. cbn [length]. split; [f_equal; lia|].
    cbn [map snd]. split; [constructor; [exact SO|]|].
    { eapply Forall_impl; [|exact IN]. cbn. intros k [I|I]; [left; apply GE; exact I|apply FR; exact I]. }
    split; [constructor; [right; left; reflexivity|]; eapply Forall_impl; [|exact IN]; cbn; tauto|].
    assert (ML : only_in (y :: r) (x :: l) = y :: only_in r (x :: l)) by (apply minus_cons_absent; exact NY).
    assert (MR : only_in (x :: l) (y :: r) = only_in (x :: l) r) by (apply minus_absent_r; exact NY).
    destruct T as [A B|w W A B|w W A B].
    + apply table_all; [rewrite MR; exact A|rewrite ML; cbn; constructor; exact B].
    + apply (table_left _ _ _ w).
      * destruct W as (W1 & W2 & W3). unfold swallowed. rewrite MR. split; [exact W1|]. split.
        -- intros z [<-|I]; [left; apply GE; eapply in_minus; exact W1|apply W2; exact I].
        -- intros z I H. apply W3; [exact I|]. intros q Q. apply H. right. exact Q.
      * rewrite MR. exact A.
      * rewrite ML. cbn. constructor. exact B.
    + apply (table_right _ _ _ w).
      * destruct W as (W1 & W2 & W3). unfold swallowed. rewrite ML. split; [right; exact W1|]. split; [exact W2|].
        intros z [<-|I] H; [|apply W3; assumption]. exfalso. apply (klt_irrefl y). eapply lt_kle; [exact L|apply H; left; reflexivity].
      * rewrite MR. exact A.
      * rewrite ML. change (rights ((false, y) :: rows)) with (y :: rights rows). etransitivity; [apply perm_swap|]. constructor. exact B.
Qed.

Lemma swallowed_perm : forall l l' r r' x, Permutation l l' -> Permutation r r' -> swallowed l r x -> swallowed l' r' x.
Proof.
  intros l l' r r' x P Q (A & B & C). assert (M := minus_perm key_dec _ _ _ _ P Q). split; [eapply Permutation_in; eassumption|]. split.
  - intros y I. apply B. eapply Permutation_in; [apply Permutation_sym; exact Q|exact I].
  - intros z I H. apply C; [eapply Permutation_in; [apply Permutation_sym; exact M|exact I]|]. intros y Y. apply H. eapply Permutation_in; eassumption.
Qed.

(* ---- the counts ---- *)
Definition pair_of (a : N) (m : amap (N * N)) : N * N := match aget a m with Some c => c | None => (0, 0) end.
Lemma counts_left : forall ps m a, pair_of a (fold_left count_left ps m) = (fst (pair_of a m) + nr_apid a ps, snd (pair_of a m)).
Proof.
  induction ps as [|p ps IH]; intros m a; cbn [fold_left].
  - unfold nr_apid. cbn. rewrite N.add_0_r. destruct (pair_of a m); reflexivity.
  - rewrite IH. unfold count_left at 1 2, pair_of at 1 2. rewrite aget_aset. unfold nr_apid. cbn [filter].
    rewrite (N.eqb_sym (apid (p_header p)) a). destruct (N.eqb_spec a (apid (p_header p))) as [->|]; [|reflexivity].
    cbn [fst snd length]. fold (pair_of (apid (p_header p)) m). f_equal. lia.
Qed.
Lemma counts_right : forall ps m a, pair_of a (fold_left count_right ps m) = (fst (pair_of a m), snd (pair_of a m) + nr_apid a ps).
Proof.
  induction ps as [|p ps IH]; intros m a; cbn [fold_left].
  - unfold nr_apid. cbn. rewrite N.add_0_r. destruct (pair_of a m); reflexivity.
  - rewrite IH. unfold count_right at 1 2, pair_of at 1 2. rewrite aget_aset. unfold nr_apid. cbn [filter].
    rewrite (N.eqb_sym (apid (p_header p)) a). destruct (N.eqb_spec a (apid (p_header p))) as [->|]; [|reflexivity].
    cbn [fst snd length]. fold (pair_of (apid (p_header p)) m). f_equal. lia.
Qed.
Lemma counts_nodup : forall pl pr, NoDup (map fst (fold_left count_right pr (fold_left count_left pl []))).
Proof.
  intros pl pr. assert (A : forall ps m, NoDup (map fst m) -> NoDup (map fst (fold_left count_left ps m))).
  { induction ps as [|p ps IH]; intros m H; [exact H|]. apply IH. apply nodup_aset. exact H. }
  assert (B : forall ps m, NoDup (map fst m) -> NoDup (map fst (fold_left count_right ps m))).
  { induction ps as [|p ps IH]; intros m H; [exact H|]. apply IH. apply nodup_aset. exact H. }
  apply B, A. constructor.
Qed.
Lemma diff_counts_ok : forall pl pr, counts_table pl pr (diff_counts pl pr).
Proof.
  intros pl pr. unfold diff_counts. set (m := fold_left count_right pr (fold_left count_left pl [])).
  assert (ND := counts_nodup pl pr). fold m in ND. assert (SO := apid_sort_sorted _ m ND). assert (PE := apid_sort_perm _ m). split.
  - revert SO. generalize (apid_sort m). clear. induction a as [|x a IH]; intro H; cbn [filter map]; [constructor|].
    inversion H as [|? ? H1 H2]; subst. destruct (negb _); [|apply IH; exact H1]. cbn [map]. constructor; [apply IH; exact H1|].
    apply Forall_forall. intros k I. rewrite Forall_forall in H2. apply H2. apply in_map_iff in I. destruct I as (y & <- & I). apply filter_In in I. apply in_map. apply I.
  - intros a nl nr. rewrite filter_In. cbn [fst snd].
    assert (PO : pair_of a m = (nr_apid a pl, nr_apid a pr)).
    { unfold m. rewrite counts_right, counts_left. unfold pair_of. cbn. reflexivity. }
    unfold pair_of in PO. split.
    + intros [I B]. assert (G : aget a m = Some (nl, nr)).
      { apply aget_nodup; [exact ND|]. eapply Permutation_in; [apply Permutation_sym; exact PE|exact I]. }
      rewrite G in PO. injection PO as -> ->. split; [reflexivity|]. split; [reflexivity|]. destruct (N.eqb_spec (nr_apid a pl) (nr_apid a pr)); [discriminate|assumption].
    + intros (-> & -> & NE). split; [|destruct (N.eqb_spec (nr_apid a pl) (nr_apid a pr)); [contradiction|reflexivity]].
      eapply Permutation_in; [exact PE|]. apply aget_in. destruct (aget a m) as [c|]; [congruence|]. injection PO as A B. congruence.
Qed.

(* ---- C69 ---- *)
(* The diff command on two files of packets, with K the greatest key: the printed rows are sorted, as many as the
   result says; they are the true differences of either side except, where K does not occur equally often, one:
   the smallest difference of that side that lies at or beyond everything on the other side *)
Theorem C69_diff_prints : forall csum fs verbose left right bl br wl wr K,
  aget left fs = Some bl -> aget right fs = Some br -> file_holds bl wl -> file_holds br wr ->
  let l := map (wkey csum) wl in let r := map (wkey csum) wr in
  In K l \/ In K r -> (forall x, In x l \/ In x r -> key_upto x K) ->
  exists counts rows, diff_command csum fs verbose left right = Val (Some (Some (counts, rows), report (length rows))) /\
    StronglySorted key_upto (map snd rows) /\
    (times K l = times K r -> Permutation (lefts rows) (only_in l r) /\ Permutation (rights rows) (only_in r l)) /\
    (times K r < times K l -> Permutation (rights rows) (only_in r l) /\
       exists x, swallowed l r x /\ Permutation (x :: lefts rows) (only_in l r))%nat /\
    (times K l < times K r -> Permutation (lefts rows) (only_in l r) /\
       exists x, swallowed r l x /\ Permutation (x :: rights rows) (only_in r l))%nat /\
    match counts with
    | None => verbose = false
    | Some c => verbose = true /\ counts_table (packets_at 0 wl) (packets_at 0 wr) c
    end.
Proof.
  intros csum fs verbose left right bl br wl wr K GL GR FL FR l r IK MK.
  destruct (C51_exact_count csum bl br wl wr K FL FR IK MK) as (il & ir & Y1 & Y2 & CNT). fold l r in CNT.
  apply (file_items_yields bl wl) in Y1; [|exact FL]. apply (file_items_yields br wr) in Y2; [|exact FR]. subst il ir.
  unfold diff_command. rewrite GL, GR, (file_items_ok _ _ FL), (file_items_ok _ _ FR). cbn [obind].
  destruct (rows_loop (S (length (key_sort l) + length (key_sort r))) (key_sort l) (key_sort r) 0) as (rows & E1 & E2 & SO & _ & T); try apply ksort_sorted; [lia|].
  assert (PL := ksort_perm l). assert (PR := ksort_perm r).
  exists (if verbose then Some (diff_counts (packets_at 0 wl) (packets_at 0 wr)) else None), rows.
  assert (NN : is_nil l && is_nil r = false) by (destruct l, r; try reflexivity; destruct IK as [[]|[]]).
  assert (RES : diff_cmd csum (map Ok (packets_at 0 wl)) (map Ok (packets_at 0 wr)) = Val (report (length rows))).
  { unfold diff_cmd. rewrite !keep_ok_map, !diff_keys_ok. cbn [obind]. fold l r. rewrite NN, E2, N.add_0_l. destruct (length rows); reflexivity. }
  split. { rewrite RES. unfold diff_output. rewrite !keep_ok_map, !diff_keys_ok. cbn [obind]. fold l r. rewrite NN, E1. reflexivity. }
  split; [exact SO|].
  assert (ML := minus_perm key_dec _ _ _ _ PL PR). assert (MR := minus_perm key_dec _ _ _ _ PR PL).
  assert (LEN : (length rows = length (lefts rows) + length (rights rows))%nat).
  { unfold lefts, rights. rewrite !map_length. clear. induction rows as [|[[|] k] rows IH]; cbn; lia. }
  assert (CL : forall a b x, swallowed a b x -> (forall z, In z a \/ In z b -> key_upto z K) -> In K a \/ In K b -> (times K b < times K a)%nat).
  { intros a b x (A & B & C) M I. assert (XK : key_upto x K) by (apply M; left; eapply in_minus; exact A).
    destruct XK as [XK| ->].
    - assert (N : ~ In K b) by (intro Z; apply (klt_irrefl x); eapply lt_kle; [exact XK|apply B; exact Z]).
      destruct I as [I|I]; [|contradiction]. rewrite (count_occ_not_In key_dec) in N. apply (count_occ_In key_dec) in I. lia.
    - apply (count_occ_In key_dec) in A. rewrite count_minus in A. lia. }
  assert (CNT2 : length rows = (diffs l r - if Nat.eq_dec (times K l) (times K r) then 0 else 1)%nat).
  { rewrite RES in CNT. clear -CNT. revert CNT. generalize (length rows) as a. generalize (diffs l r - (if Nat.eq_dec (times K l) (times K r) then 0 else 1))%nat as b. intros [|b] [|a] H; cbn [report] in H; try discriminate; try reflexivity. injection H as H. lia. }
  destruct T as [A B|x W A B|x W A B].
  - assert (A' := Permutation_trans A (Permutation_sym ML)). assert (B' := Permutation_trans B (Permutation_sym MR)).
    assert (EQ : times K l = times K r).
    { destruct (Nat.eq_dec (times K l) (times K r)) as [E|E]; [exact E|]. exfalso.
      apply Permutation_length in A'. apply Permutation_length in B'. unfold differences in CNT2.
      assert (LP : (0 < length (only_in l r) + length (only_in r l))%nat).
      { assert (I : In K (only_in l r) \/ In K (only_in r l)).
        { destruct (Nat.lt_ge_cases (times K r) (times K l)); [left|right]; apply (count_occ_In key_dec); rewrite count_minus; lia. }
        destruct I as [I|I]; [destruct (only_in l r)|destruct (only_in r l)]; try destruct I; cbn [length]; lia. }
      lia. }
    split; [intros _; split; assumption|]. split; [intro; lia|]. split; [intro; lia|].
    destruct verbose; [split; [reflexivity|apply diff_counts_ok]|reflexivity].
  - assert (A' := Permutation_trans A (Permutation_sym ML)). assert (B' := Permutation_trans B (Permutation_sym MR)).
    assert (W' := swallowed_perm _ _ _ _ _ (Permutation_sym PL) (Permutation_sym PR) W).
    assert (LT := CL _ _ _ W' MK IK).
    split; [intro; lia|]. split; [intros _; split; [assumption|exists x; split; assumption]|]. split; [intro; lia|].
    destruct verbose; [split; [reflexivity|apply diff_counts_ok]|reflexivity].
  - assert (A' := Permutation_trans A (Permutation_sym ML)). assert (B' := Permutation_trans B (Permutation_sym MR)).
    assert (W' := swallowed_perm _ _ _ _ _ (Permutation_sym PR) (Permutation_sym PL) W).
    assert (LT : (times K l < times K r)%nat) by (apply (CL _ _ _ W'); [intros z Z; apply MK; tauto|tauto]).
    split; [intro; lia|]. split; [intro; lia|]. split; [intros _; split; [assumption|exists x; split; assumption]|].
    destruct verbose; [split; [reflexivity|apply diff_counts_ok]|reflexivity].
Qed.
Print Assumptions C69_diff_prints.
(* nothing is compared or printed when both files are without packets, or one cannot be opened *)
Theorem C69_diff_nothing : forall csum fs verbose left right,
  (forall bl br, aget left fs = Some bl -> aget right fs = Some br -> file_holds bl [] -> file_holds br [] ->
     diff_command csum fs verbose left right = Val (Some (None, DiffNoPackets))) /\
  (aget left fs = None \/ (exists bl wl, aget left fs = Some bl /\ file_holds bl wl) /\ aget right fs = None ->
     diff_command csum fs verbose left right = Val None).
Proof.
  intros csum fs verbose left right. split.
  - intros bl br GL GR FL FR. unfold diff_command. rewrite GL, GR, (file_items_ok _ _ FL), (file_items_ok _ _ FR). reflexivity.
  - intros H. unfold diff_command. destruct H as [->|((bl & wl & -> & F) & ->)]; [reflexivity|]. rewrite (file_items_ok _ _ F). reflexivity.
Qed.
Print Assumptions C69_diff_nothing.
(* comparing a file with packets with itself: no row, no count, success *)
Theorem C69_diff_same_file : forall csum fs verbose path bs ws, aget path fs = Some bs -> file_holds bs ws -> ws <> [] ->
  diff_command csum fs verbose path path = Val (Some (Some (if verbose then Some [] else None, []), DiffOk)).
Proof.
  intros csum fs verbose path bs ws G F NE. destruct (C51_equal_files csum bs bs ws ws F F (Permutation_refl _) NE) as (il & ir & Y1 & Y2 & R).
  apply (file_items_yields bs ws) in Y1; [|exact F]. apply (file_items_yields bs ws) in Y2; [|exact F]. subst il ir.
  unfold diff_command. rewrite G, (file_items_ok _ _ F). cbn [obind]. rewrite R.
  unfold diff_output. rewrite !keep_ok_map, !diff_keys_ok. cbn [obind].
  replace (is_nil (map (wkey csum) ws)) with false by (destruct ws; [contradiction|reflexivity]). cbn [andb].
  set (l := key_sort (map (wkey csum) ws)).
  destruct (rows_loop (S (length l + length l)) l l 0) as (rows & E1 & E2 & _ & _ & _); try apply ksort_sorted; [lia|].
  rewrite E1. unfold diff_cmd in R. rewrite !keep_ok_map, !diff_keys_ok in R. cbn [obind] in R.
  replace (is_nil (map (wkey csum) ws)) with false in R by (destruct ws; [contradiction|reflexivity]). cbn [andb] in R. fold l in R. rewrite E2, N.add_0_l in R.
  assert (rows = []) as -> by (destruct rows; [reflexivity|cbn in R; discriminate]). cbn [obind]. do 4 f_equal. destruct verbose; [|reflexivity]. f_equal.
  destruct (diff_counts_ok (packets_at 0 ws) (packets_at 0 ws)) as [_ H]. destruct (diff_counts _ _) as [|[a [nl nr]] c]; [reflexivity|].
  destruct (proj1 (H a nl nr) (or_introl eq_refl)) as (A & B & C). congruence.
Qed.
Print Assumptions C69_diff_same_file.
(* the info command on a file of packets *)
Theorem C69_info_command : forall ovf fs input bs ws (cds : bool), aget input fs = Some bs -> file_holds bs ws ->
  let ps := packets_at 0 ws in let time_of : option (packet -> option Z) := if cds then Some cds_time else None in
  exists all rows, info_command ovf fs input cds = Val (Some (all, rows)) /\
    describes (tf time_of) ps all /\ i_missing all = missing_sum rows /\
    StronglySorted N.lt (map fst rows) /\
    (forall a, In a (map fst rows) <-> exists w, In w ws /\ apid (w_header w) = a) /\
    (forall a s, In (a, s) rows -> describes (tf time_of) (of_apid a ps) s /\ i_missing s = gaps (of_apid a ps)).
Proof.
  intros ovf fs input bs ws cds G F ps time_of. unfold info_command. rewrite G, (file_items_ok _ _ F). cbn [obind].
  destruct (C52_info ovf time_of (map Ok ps)) as (all & rows & E & A & B & C & D & H).
  { rewrite keep_ok_map. destruct F as (HW & _). subst ps. generalize 0%nat. clear -HW. induction HW as [|w ws H _ IH]; intro off; cbn [packets_at]; constructor; [|apply IH].
    cbn [p_header]. destruct H as (H & _). unfold header_ok in H. change (2 ^ 14) with 16384 in H. lia. }
  rewrite keep_ok_map in *. exists all, rows. fold ps. fold time_of. rewrite E. cbn [obind]. repeat (split; [assumption || reflexivity|]). split; [|exact H].
  intro a. rewrite D. clear. subst ps. generalize 0%nat. induction ws as [|w ws IH]; intro off; cbn [packets_at].
  - split; intros (x & [] & _).
  - split.
    + intros (p & [<-|I] & E); [exists w; split; [left; reflexivity|exact E]|]. destruct (proj1 (IH _) (ex_intro _ p (conj I E))) as (w' & I' & E'). exists w'. split; [right; exact I'|exact E'].
    + intros (w' & [<-|I] & E); [eexists; split; [left; reflexivity|exact E]|]. destruct (proj2 (IH (off + length (wire_bytes w))%nat) (ex_intro _ w' (conj I E))) as (p & I' & E'). exists p. split; [right; exact I'|exact E'].
Qed.
Print Assumptions C69_info_command.
Theorem C69_info_missing_file : forall ovf fs input cds, aget input fs = None -> info_command ovf fs input cds = Val None.
Proof. intros ovf fs input cds E. unfold info_command. rewrite E. reflexivity. Qed.
Print Assumptions C69_info_missing_file.

(* left: apids 7, 8; right: 7, 7, 9, 9: 8 and one 7 are reported, one of the two 9 is, the counts are all right *)
Definition dx_fs : fsys :=
  [(1, wire_bytes (fl_wire 7 1) ++ wire_bytes (fl_wire 8 1));
   (2, wire_bytes (fl_wire 9 1) ++ wire_bytes (fl_wire 7 1) ++ wire_bytes (fl_wire 7 1) ++ wire_bytes (fl_wire 9 2))].
Example C69_ex : exists k7 k8 k9, 
  diff_command sum8 dx_fs true 1 2 = Val (Some (Some (Some [(7, (1, 2)); (8, (1, 0)); (9, (0, 2))], [(false, k7); (true, k8); (false, k9)]), DiffCount 3)) /\
  k7 = wkey sum8 (fl_wire 7 1) /\ k8 = wkey sum8 (fl_wire 8 1) /\ (k9 = wkey sum8 (fl_wire 9 1) \/ k9 = wkey sum8 (fl_wire 9 2)).
Proof. do 3 eexists. split; [vm_compute; reflexivity|]. repeat split; vm_compute; auto. Qed.
Example C69_ex_info : option_map (fun r => (i_total (fst r), map fst (snd r))) (match info_command true dx_fs 2 false with Val r => r | Panic => None end) = Some (4, [7; 9]).
Proof. vm_compute. reflexivity. Qed.
