(* Property C82: merging inputs that fail or change while they are read *)
From Coq Require Import Permutation Sorted.
From Verif Require Import Base S_Packet M_Reader M_Packet M_Group S_Group M_Timecode L_Base L_Reader L_Packet L_Group M_Merge S_Merge L_Merge
  M_Cli M_Main M_Write S_Main S_Write L_Write P_Write P_Merge M_Live S_Live P_Live P_LiveCmd P_ReadErr L_SyncReads M_MergeLive S_MergeLive L_MergeLive L_Live.
Open Scope nat_scope.

(* Whatever the inputs do while they are read for the index, if reading ends: of the groups that were found one of each key is
   chosen, in the order of their times; what is found again where they were found is written one after the other, up to the
   first that is not found again, whose error is returned. No group is written in part because of its input. *)
Theorem C82_merge : forall h ins m0 order found w, mg_order m0 = [] ->
  let m := with_apid_order m0 order in
  order_ok h -> all_found ins m found ->
  exists sel full failure r w', eventually (merge_live h ins m w) (Some (Val (r, w'))) /\
    chosen m found sel /\ time_order m order sel /\ copied (again_of ins) sel full failure /\
    written_to w w' full (match failure with None => Ok tt | Some e => Err (Io e) end) (fun k => Err (Io k)) r.
Proof.
  intros h ins m0 order found w EO m H AF. destruct (live_main h ins m found w H AF) as (l & sel & F & SS & N & _ & FA & C & EV).
  destruct (write_chunks (fst (blocks_of (again_of ins) 0 l)) w) as [st w'] eqn:WC.
  exists sel, (concat (fst (blocks_of (again_of ins) 0 l))), (snd (blocks_of (again_of ins) 0 l)). eexists. exists w'. split; [exact EV|].
  split; [eapply live_chosen; eassumption|]. split; [|split].
  - intros x y tx ty ax ay sx sy ox oy B KX KY OX OY. destruct (before_F2 _ _ _ _ _ _ _ F B) as (a & b & B' & PX & PY).
    assert (K := sorted_before _ _ _ _ _ SS B'). rewrite (points_key _ _ _ PX) in KX. rewrite (points_key _ _ _ PY) in KY.
    injection KX as TX EA _. injection KY as TY EB _. rewrite <- EA in OX. rewrite <- EB in OY.
    unfold kle in K. rewrite TX, TY, (points_order _ _ _ PX), (points_order _ _ _ PY) in K. unfold m in K.
    rewrite (order_of_value _ _ _ _ EO OX), (order_of_value _ _ _ _ EO OY) in K. exact K.
  - eapply blocks_are_copied. exact F.
  - apply (written_map (result unit) (end_of (snd (blocks_of (again_of ins) 0 l))) (fun k => Err (Io k))), chunks_spec. exact WC.
Qed.
Print Assumptions C82_merge.
(* what there is to write is determined by the choice *)
Theorem C82_copied_unique : forall again sel full e full' e', copied again sel full e -> copied again sel full' e' -> full = full' /\ e = e'.
Proof. exact copied_unique. Qed.
Print Assumptions C82_copied_unique.
(* every reader of bytes reads in some way, so that one of the theorems here applies *)
Theorem C82_every_input : forall ins m, (forall p, In p (mg_paths m) -> exists i, ins p = Some i /\ of_bytes (in_first i)) ->
  exists found st, all_read ins m found st.
Proof.
  intros ins m H.
  assert (G : forall p, exists x : list pgroup * status, In p (mg_paths m) -> exists i, ins p = Some i /\ group_reads (pdec_new (in_first i)) (fst x) (snd x)).
  { intro p. destruct (in_dec N.eq_dec p (mg_paths m)) as [I|I]; [|exists ([], Returned); tauto]. destruct (H p I) as (i & E & OB).
    destruct (C79_every_group_reader _ OB) as (gs & st & R & _). exists (gs, st). intros _. eauto. }
  assert (CH : forall paths, exists f : N -> list pgroup * status, forall p, In p paths -> In p (mg_paths m) ->
    exists i, ins p = Some i /\ group_reads (pdec_new (in_first i)) (fst (f p)) (snd (f p))).
  { induction paths as [|q paths (f & F)]; [exists (fun _ => ([], Returned)); intros p []|]. destruct (G q) as (x & X).
    exists (fun p => if (p =? q)%N then x else f p). intros p [<-|I] IP; [rewrite N.eqb_refl; auto|]. destruct (N.eqb_spec p q) as [->|_]; auto. }
  destruct (CH (mg_paths m)) as (f & F). exists (fun p => fst (f p)), (fun p => snd (f p)). intros p I. exact (F p I I).
Qed.
Print Assumptions C82_every_input.
(* An input that cannot be opened: nothing is read or written *)
Theorem C82_unopened : forall h ins m w, (exists p, In p (mg_paths m) /\ ins p = None) ->
  exists k, forall n, merge_live h ins m w n = Some (Val (Err (Io k), w)).
Proof.
  intros h ins m w H. destruct (open_inputs_err ins (mg_paths m) [] H) as (k & E). exists k. intro n. unfold merge_live. rewrite E. reflexivity.
Qed.
Print Assumptions C82_unopened.
(* An input that fails for ever or breaks the decoder while the index is made: the merge never returns, or panics, before
   anything is written *)
Lemma index_bad : forall m found st rd, Forall (fun x => group_reads (pdec_new (snd x)) (found (fst x)) (st (fst x))) rd ->
  forall index,
  ((exists x, In x rd /\ st (fst x) <> Returned) -> forall n, index_live m rd index n = None \/ index_live m rd index n = Some Panic) /\
  ((exists x, In x rd /\ st (fst x) = Running) -> (forall x, In x rd -> st (fst x) <> Panicking) -> forall n, index_live m rd index n = None) /\
  ((exists x, In x rd /\ st (fst x) = Panicking) -> (forall x, In x rd -> st (fst x) <> Running) -> eventually (index_live m rd index) (Some Panic)).
Proof.
  intros m found st rd F. induction F as [|[p r] rd R F IH]; intro index.
  - split; [|split]; intros (x & [] & _).
  - cbn [fst snd] in R. assert (P := pointers_reads m p _ _ _ R). destruct (st p) eqn:ST.
    + destruct P as (n0 & P). destruct (IH (set_union index (set_collect (filter_map_opt (group_ptr m p) (found p))))) as (A & B & C).
      assert (PN : forall n x, pointers_live m p r n = Some x -> x = Val (set_collect (filter_map_opt (group_ptr m p) (found p)))).
      { intros n x E. apply (pointers_more _ _ _ _ (n + n0)) in E; [|lia]. rewrite P in E by lia. congruence. }
      split; [|split].
      * intros (x & [<-|I] & NR) n; [cbn [fst] in NR; congruence|]. cbn [index_live]. destruct (pointers_live m p r n) as [y|] eqn:EY; [|left; reflexivity].
        rewrite (PN _ _ EY). apply A. eauto.
      * intros (x & [<-|I] & NR) NP n; [cbn [fst] in NR; congruence|]. cbn [index_live]. destruct (pointers_live m p r n) as [y|] eqn:EY; [|reflexivity].
        rewrite (PN _ _ EY). apply B; [eauto|]. intros z Z. apply NP. right. exact Z.
      * intros (x & [<-|I] & NR) NP; [cbn [fst] in NR; congruence|]. destruct C as (n1 & C); [eauto|intros z Z; apply NP; right; exact Z|].
        exists (n0 + n1). intros n L. cbn [index_live]. rewrite P by lia. apply C. lia.
    + destruct P as (n0 & P). assert (PN : forall n x, pointers_live m p r n = Some x -> x = Panic).
      { intros n x E. apply (pointers_more _ _ _ _ (n + n0)) in E; [|lia]. rewrite P in E by lia. congruence. }
      split; [|split].
      * intros _ n. cbn [index_live]. destruct (pointers_live m p r n) as [y|] eqn:EY; [|left; reflexivity]. rewrite (PN _ _ EY). right. reflexivity.
      * intros _ NP. exfalso. apply (NP (p, r)); [left; reflexivity|exact ST].
      * intros _ _. exists n0. intros n L. cbn [index_live]. rewrite P by exact L. reflexivity.
    + split; [|split].
      * intros _ n. cbn [index_live]. rewrite P. left. reflexivity.
      * intros _ _ n. cbn [index_live]. rewrite P. reflexivity.
      * intros _ NR. exfalso. apply (NR (p, r)); [left; reflexivity|exact ST].
Qed.
Theorem C82_index_fails : forall h ins m found st w, order_ok h -> all_read ins m found st ->
  ((exists p, In p (mg_paths m) /\ st p <> Returned) -> forall n, merge_live h ins m w n = None \/ merge_live h ins m w n = Some Panic) /\
  ((exists p, In p (mg_paths m) /\ st p = Running) -> (forall p, In p (mg_paths m) -> st p <> Panicking) -> forall n, merge_live h ins m w n = None) /\
  ((exists p, In p (mg_paths m) /\ st p = Panicking) -> (forall p, In p (mg_paths m) -> st p <> Running) -> eventually (merge_live h ins m w) (Some Panic)).
Proof.
  intros h ins m found st w [HR _] AR.
  destruct (open_inputs_ok ins (mg_paths m) []) as (r & ER & ND & HM & HK).
  { intros p I E. destruct (AR p I) as (i & E' & _). congruence. }
  { constructor. }
  { intros p i []. }
  set (r' := lo_inputs h r). assert (PR : Permutation r r') by apply HR.
  assert (KP : forall p, In p (map fst r') <-> In p (mg_paths m)).
  { intro p. rewrite <- (Permutation_map fst PR), HK. cbn [map In]. tauto. }
  set (rd := map (fun x => (fst x, in_first (snd x))) r').
  assert (FR : map fst rd = map fst r') by (unfold rd; rewrite map_map; reflexivity).
  assert (F : Forall (fun x => group_reads (pdec_new (snd x)) (found (fst x)) (st (fst x))) rd).
  { apply Forall_forall. intros x I. unfold rd in I. apply in_map_iff in I. destruct I as ([p i] & <- & I). cbn [fst snd].
    assert (IP : In p (mg_paths m)) by (apply KP; apply (in_map fst) in I; exact I).
    destruct (AR p IP) as (i' & E & G). apply (Permutation_in _ (Permutation_sym PR)) in I. rewrite (HM _ _ I) in E. injection E as ->. exact G. }
  assert (EX : forall s, (exists p, In p (mg_paths m) /\ st p = s) -> exists x, In x rd /\ st (fst x) = s).
  { intros s (p & I & E). apply KP in I. rewrite <- FR in I. apply in_map_iff in I. destruct I as (x & <- & I). eauto. }
  assert (AL : forall s, (forall p, In p (mg_paths m) -> st p <> s) -> forall x, In x rd -> st (fst x) <> s).
  { intros s A x I. apply A. apply KP. rewrite <- FR. apply in_map. exact I. }
  destruct (index_bad m found st rd F []) as (A & B & C). unfold merge_live. rewrite ER. fold r' rd. split; [|split].
  - intros (p & I & NR) n. destruct (EX (st p)) as (x & X & EX'); [eauto|]. destruct A with (n := n) as [-> | ->]; [exists x; split; congruence|auto|auto].
  - intros E NP n. rewrite B; [reflexivity|apply EX; exact E|apply AL; exact NP].
  - intros E NP. destruct C as (n0 & C); [apply EX; exact E|apply AL; exact NP|]. exists n0. intros n L. rewrite C by exact L. reflexivity.
Qed.
Print Assumptions C82_index_fails.

(* ---- inputs that are files ---- *)
Lemma between_ok : forall ts ws tail, fails_between ts ws tail -> Forall wire_ok ws -> bytes_ok tail -> tbytes_ok ts.
Proof.
  intros ts ws tail F. induction F as [tail|k ts ws tail _ F IH|w ts ws tail F IH]; intros HW HB.
  - apply tbytes_ok_map. exact HB.
  - constructor; [exact I|exact (IH HW HB)].
  - inversion HW as [|? ? H1 H2]; subst. apply tbytes_ok_app. split; [apply tbytes_ok_map; apply wire_bytes_props; exact H1|auto].
Qed.
Lemma between_plain : forall ws tail, fails_between (map TByte (concat (map wire_bytes ws) ++ tail)) ws tail.
Proof.
  induction ws as [|w ws IH]; intro tail; cbn [map concat app]; [constructor|]. rewrite <- app_assoc, map_app. constructor. apply IH.
Qed.
Lemma reads_between : forall ts ws tail, fails_between ts ws tail ->
  Forall wire_ok ws -> Forall (fun w => N.of_nat (length (wire_bytes w)) <= 65536)%N ws ->
  bytes_ok tail -> incomplete tail -> (6 <= length tail -> (N.of_nat (wire_len tail) <= 65536)%N) ->
  forall s, transcript (evs (pd_reader s)) = ts -> fin (pd_reader s) = AtEof ->
  exists items s', reads pdec_next s items (EndsIn s') /\ keep_ok items = packets_at (pd_offset s) ws /\ exists s2, pdec_next s' = Val (None, s2).
Proof.
  intros ts ws tail B. induction B as [tail|k ts ws tail NK B IH|w ts ws tail B IH]; intros HW HL HB HI HT s T F.
  - destruct (reads_plain s []) as (s' & R & X).
    + unfold pd_ok. rewrite T. apply tbytes_ok_map. exact HB.
    + exact F.
    + rewrite T. intros t I. apply in_map_iff in I. destruct I as (b & <- & _). eauto.
    + apply pdec_yields; [unfold pd_ok; rewrite T; apply tbytes_ok_map; exact HB|]. unfold ptok_of. rewrite T, F. apply ptok_tail_ends; assumption.
    + exists [], s'. auto.
  - assert (OK : pd_ok s). { unfold pd_ok. rewrite T. constructor; [exact I|]. exact (between_ok _ _ _ B HW HB). }
    assert (P := pdec_ptok s OK). unfold ptok_of at 2 in P. rewrite T, F in P.
    change (TErr k :: ts) with (map TByte [] ++ TErr k :: ts) in P.
    rewrite (ptok_incomplete [] (TErr k :: ts) AtEof (pd_offset s) k ts) in P; [|constructor|apply incomplete_nil|cbn; lia|reflexivity].
    destruct (pdec_next s) as [[o s']|] eqn:E; cbn [omap_st] in P; [|discriminate]. unfold ptok_of in P.
    assert (EO : o = Some (Err (Io k))) by (destruct k; congruence).
    destruct (IH HW HL HB HI HT s') as (items & s2 & R & K & X); [congruence|congruence|].
    exists (Err (Io k) :: items), s2. split; [eapply reads_item; [rewrite E, EO; reflexivity|exact R]|]. split; [|exact X].
    cbn [keep_ok]. rewrite K. f_equal. congruence.
  - inversion HW as [|? ? W1 HW']; subst. inversion HL as [|? ? L1 HL']; subst.
    destruct (wire_bytes_props w W1) as (Hb & L7 & LW & HH).
    assert (OK : pd_ok s). { unfold pd_ok. rewrite T. apply tbytes_ok_app. split; [apply tbytes_ok_map; exact Hb|eapply between_ok; eassumption]. }
    assert (P := pdec_ptok s OK). unfold ptok_of at 2 in P. rewrite T, F in P.
    rewrite ptok_packet in P; [|exact Hb|lia|lia|rewrite LW; apply max_len_spec; exact L1]. rewrite HH in P.
    destruct (pdec_next s) as [[o s']|] eqn:E; cbn [omap_st] in P; [|discriminate]. unfold ptok_of in P.
    destruct (IH HW' HL' HB HI HT s') as (items & s2 & R & K & X); [congruence|congruence|].
    exists (Ok (mkPacket (w_header w) (wire_bytes w) (pd_offset s)) :: items), s2. split; [|split; [|exact X]].
    + eapply reads_item; [|exact R]. rewrite E. f_equal. f_equal. congruence.
    + cbn [keep_ok packets_at]. rewrite K. do 2 f_equal. congruence.
Qed.
Lemma well_group_reads : forall r bs ws gs, read_well r bs ws -> grouping (packets_at 0 ws) gs -> group_reads (pdec_new r) gs Returned.
Proof.
  intros r bs ws gs (H & [->|(tail & EB & B & F)]) G; [apply (proj1 (C79_group_inputs bs ws gs)); assumption|].
  destruct H as (HW & HL & tail' & EB' & HB & HI & HT). rewrite EB in EB'. apply app_inv_head in EB'. subst tail'.
  destruct (reads_between _ _ _ B HW HL HB HI HT (pdec_new r) eq_refl F) as (items & s' & R & K & s2 & E). cbn [pdec_new pd_offset] in K. rewrite <- K in G.
  destruct (ends_open_dec gs) as [O|O].
  - eapply Forall_impl; [|eapply grouping_wf; exact G]. intros g [X _]. exact X.
  - rewrite <- (app_nil_r gs). eapply gr_on; [exact R|exact G|exact O|]. eapply gr_end with (items := []); [apply reads_end; exact E|constructor|apply ends_open_nil].
  - eapply gr_end; eassumption.
Qed.
Lemma found_groups : forall (ws : N -> list wire_packet) (paths : list N), exists found, forall p, In p paths -> grouping (packets_at 0 (ws p)) (found p).
Proof.
  intros ws paths. induction paths as [|q paths (f & F)]; [exists (fun _ => []); intros p []|]. destruct (grouping_total (packets_at 0 (ws q))) as (gs & G).
  exists (fun p => if (p =? q)%N then gs else f p). intros p [<-|I]; [rewrite N.eqb_refl; exact G|]. destruct (N.eqb_spec p q) as [->|_]; auto.
Qed.
Lemma group_placed : forall bs ws gs g off n more, file_holds bs ws -> grouping (packets_at 0 ws) gs -> In g gs -> placed g off n ->
  off + n <= length bs /\ firstn n (skipn off (bs ++ more)) = group_bytes g.
Proof.
  intros bs ws gs g off n more H G I (f & rest & E & -> & EN). destruct (group_span bs ws gs g f rest H G I E) as [L FN].
  assert (EQ : list_sum (map (fun p => total_len (p_header p)) (g_packets g)) = n).
  { rewrite EN. f_equal. apply map_ext. intro p. unfold total_len, HDR_LEN. lia. }
  rewrite EQ in L, FN. rewrite skipn_length in L. assert (0 < n). { rewrite EN, E. cbn. lia. } split; [lia|].
  rewrite skipn_app, firstn_app, skipn_length. replace (n - (length bs - p_offset f)) with 0 by lia. cbn [firstn]. rewrite app_nil_r. exact FN.
Qed.
(* Files that are read for the index without errors, or with errors between packets only, and which hold the same bytes, and perhaps more behind them, when they are read
   again, except that seeking and reading may fail at any point then: whole groups of the merged output (C18, C19) are there
   to be written, and all of them if nothing is reported. *)
Theorem C82_same_files : forall h ins m0 order ws w, mg_order m0 = [] ->
  let m := with_apid_order m0 order in
  order_ok h ->
  (forall p, In p (mg_paths m) -> exists i bs more, ins p = Some i /\ read_well (in_first i) bs (ws p) /\ has_now i (bs ++ more)) ->
  exists sel j failure r w', eventually (merge_live h ins m w) (Some (Val (r, w'))) /\
    selection m ws sel /\
    (forall x y tx ty ax ay sx sy ox oy, before sel x y -> gkey m x = Some (tx, ax, sx) -> gkey m y = Some (ty, ay, sy) ->
       order_value order ax ox -> order_value order ay oy -> (tx < ty \/ tx = ty /\ ox <= oy)%Z) /\
    (failure = None <-> j = length sel) /\ j <= length sel /\
    written_to w w' (concat (map group_bytes (firstn j sel))) (match failure with None => Ok tt | Some e => Err (Io e) end) (fun k => Err (Io k)) r.
Proof.
  intros h ins m0 order ws w EO m H HF. destruct (found_groups ws (mg_paths m)) as (found & FG).
  assert (AF : all_found ins m found).
  { intros p I. destruct (HF p I) as (i & bs & more & E & RW & _). exists i. split; [exact E|]. eapply well_group_reads; [exact RW|exact (FG p I)]. }
  destruct (C82_merge h ins m0 order found w EO H AF) as (sel & full & failure & r & w' & EV & (CH1 & CH2 & CH3) & TO & (bl & EF & CB & CE) & WT).
  fold m in EV, CH1, CH2, CH3, TO.
  assert (EL : forall x, candidate m found x -> eligible m ws (snd x)).
  { intros x (f & rest & t & I & J & R). exists (fst x), (found (fst x)), f, rest, t. split; [exact I|]. split; [exact (FG _ I)|]. tauto. }
  assert (LE : forall g, eligible m ws g -> exists p, candidate m found (p, g)).
  { intros g (p & gs & f & rest & t & I & G & J & R). exists p, f, rest, t. cbn [fst snd]. split; [exact I|]. rewrite (grouping_det _ _ _ (FG p I) G). tauto. }
  assert (LB : length bl <= length sel).
  { destruct (Nat.le_gt_cases (length bl) (length sel)) as [L|L]; [exact L|exfalso]. destruct (nth_error bl (length sel)) as [d|] eqn:N; [|apply nth_error_None in N; lia].
    destruct (CB _ _ N) as (x & X & _). assert (length sel < length sel) by (apply nth_error_Some; congruence). lia. }
  exists (map snd sel), (length bl), failure, r, w'. split; [exact EV|]. split; [|split; [|split; [|split]]].
  - split; [|split].
    + apply Forall_forall. intros g I. apply in_map_iff in I. destruct I as (x & <- & I). apply EL. rewrite Forall_forall in CH1. auto.
    + rewrite map_map. exact CH2.
    + intros g E. destruct (LE g E) as (p & C). destruct (CH3 _ C) as (x' & I & K). exists (snd x'). split; [apply in_map; exact I|exact K].
  - intros x y tx ty ax ay sx sy ox oy (l1 & l2 & l3 & B). apply map_eq_app in B. destruct B as (a1 & a2 & -> & <- & B).
    apply map_eq_cons in B. destruct B as (x0 & a3 & -> & <- & B). apply map_eq_app in B. destruct B as (a4 & a5 & -> & <- & B).
    apply map_eq_cons in B. destruct B as (y0 & a6 & -> & <- & <-). apply TO. exists a1, a4, a6. reflexivity.
  - rewrite map_length. split; [intros ->; exact CE|]. intro L. destruct failure as [e|]; [|reflexivity]. destruct CE as (x & X & _).
    assert (length bl < length sel) by (apply nth_error_Some; congruence). lia.
  - rewrite map_length. exact LB.
  - enough (E : full = concat (map group_bytes (firstn (length bl) (map snd sel)))) by (rewrite <- E; exact WT). rewrite EF. f_equal.
    apply nth_error_same. intro k. destruct (nth_error bl k) as [d|] eqn:N.
    + assert (LK : k < length bl) by (apply nth_error_Some; congruence). destruct (CB _ _ N) as (x & X & (off & n & rd & rd' & PL & AG & RE)).
      assert (IX := nth_error_In _ _ X). rewrite Forall_forall in CH1. destruct (CH1 x IX) as (f & rest & t & IP & IG & _).
      destruct (HF _ IP) as (i & bs & more & EI & (FH & _) & HN). unfold again_of in AG. rewrite EI in AG.
      destruct (HN k off) as [(e & Q)|(r0 & Q & TR)]; rewrite AG in Q; [discriminate|]. injection Q as <-.
      destruct (truthful_again _ _ _ _ _ TR RE) as [_ ->]. destruct (group_placed bs _ _ _ off n more FH (FG _ IP) IG PL) as [_ ->].
      symmetry. rewrite nth_error_map. replace (nth_error (firstn (length bl) (map snd sel)) k) with (Some (snd x)); [reflexivity|].
      assert (Y : nth_error (map snd sel) k = Some (snd x)) by (rewrite nth_error_map, X; reflexivity).
      rewrite <- (firstn_skipn (length bl) (map snd sel)), nth_error_app1 in Y; [symmetry; exact Y|rewrite firstn_length, map_length; lia].
    + symmetry. apply nth_error_None. apply nth_error_None in N. rewrite map_length, firstn_length. lia.
Qed.
Print Assumptions C82_same_files.

(* Files that have other contents when they are read again (whatever was found in them before): the bytes that are now where the
   groups were are written, up to the first place that is not there any more *)
Theorem C82_changed_files : forall h ins m0 order found now w, mg_order m0 = [] ->
  let m := with_apid_order m0 order in
  order_ok h -> all_found ins m found -> (forall p i, In p (mg_paths m) -> ins p = Some i -> reads_now i (now p)) ->
  exists sel blocks r w', eventually (merge_live h ins m w) (Some (Val (r, w'))) /\
    chosen m found sel /\ time_order m order sel /\ Forall2 (at_place now) (firstn (length blocks) sel) blocks /\
    ((length blocks = length sel /\ written_to w w' (concat blocks) (Ok tt) (fun k => Err (Io k)) r) \/
     (exists x, nth_error sel (length blocks) = Some x /\ beyond now x /\
        written_to w w' (concat blocks) (Err (Io UnexpectedEof)) (fun k => Err (Io k)) r)).
Proof.
  intros h ins m0 order found now w EO m H AF RN.
  destruct (C82_merge h ins m0 order found w EO H AF) as (sel & full & failure & r & w' & EV & CH & TO & (bl & EF & CB & CE) & WT).
  fold m in EV, CH, TO. exists sel, bl, r, w'. split; [exact EV|]. split; [exact CH|]. split; [exact TO|].
  assert (IM : forall k x, nth_error sel k = Some x -> exists i, ins (fst x) = Some i /\ reads_now i (now (fst x))).
  { intros k x X. apply nth_error_In in X. destruct CH as (C1 & _). rewrite Forall_forall in C1. destruct (C1 x X) as (f & rest & t & IP & _).
    destruct (AF _ IP) as (i & EI & _). exists i. split; [exact EI|]. exact (RN _ _ IP EI). }
  split.
  - assert (G : forall k d, nth_error bl k = Some d -> exists x, nth_error sel k = Some x /\ at_place now x d).
    { intros k d N. destruct (CB k d N) as (x & X & (off & n & rd & rd' & PL & AG & RE)). exists x. split; [exact X|].
      destruct (IM k x X) as (i & EI & R). unfold again_of in AG. rewrite EI in AG. destruct (R k off) as (r0 & Q & RA). rewrite AG in Q. injection Q as <-.
      destruct (reads_as_again _ _ n RA) as (g & r2 & E & EG). rewrite RE in E. destruct (Nat.leb_spec n (length (skipn off (now (fst x))))) as [L|L]; [|discriminate].
      injection E as <- <-. exists off, n. split; [exact PL|]. rewrite skipn_length in L.
      assert (0 < n). { destruct PL as (f & rest & E & _ & ->). rewrite E. cbn. lia. }
      split; [lia|]. apply EG. rewrite skipn_length. lia. }
    clear -G. revert sel G. induction bl as [|d bl IH]; intros sel G; cbn [length firstn]; [constructor|].
    destruct (G 0 d eq_refl) as (x & X & A). destruct sel as [|x' sel]; [discriminate|]. cbn in X. injection X as ->. cbn [firstn].
    constructor; [exact A|]. apply IH. intros k d' N. exact (G (S k) d' N).
  - rewrite <- EF. destruct failure as [e|]; [right|left; auto]. destruct CE as (x & X & (off & n & PL & NF)). exists x. split; [exact X|].
    destruct (IM _ x X) as (i & EI & R). unfold again_of in NF. rewrite EI in NF. destruct (R (length bl) off) as (r0 & Q & RA). rewrite Q in NF.
    destruct NF as [NF|(rd & d & rd' & NF & RE)]; [discriminate|]. injection NF as <-.
    destruct (reads_as_again _ _ n RA) as (g & r2 & E & EG). rewrite RE in E. destruct (Nat.leb_spec n (length (skipn off (now (fst x))))) as [L|L]; [discriminate|].
    injection E as _ -> _. split; [|exact WT]. exists off, n. split; [exact PL|]. rewrite skipn_length in L. lia.
Qed.
Print Assumptions C82_changed_files.

Lemma open_files : forall fs paths m, open_inputs (fun p => option_map file_input (fs p)) paths (map (fun x => (fst x, file_input (snd x))) m) =
  match open_readers fs paths m with Ok r => Ok (map (fun x => (fst x, file_input (snd x))) r) | Err e => Err e end.
Proof.
  intros fs paths. induction paths as [|p paths IH]; intro m; [reflexivity|]. cbn [open_inputs open_readers]. destruct (fs p) as [bs|]; cbn [option_map]; [|reflexivity].
  rewrite <- IH. f_equal. induction m as [|[q b] m IHm]; [reflexivity|]. cbn [map fst snd aset]. destruct (p =? q)%N; [reflexivity|]. cbn [map fst snd]. rewrite IHm. reflexivity.
Qed.
Lemma aget_files : forall p m, aget p (map (fun x => (fst x, file_input (snd x))) m) = option_map file_input (aget p m).
Proof. intros p m. induction m as [|[q b] m IH]; [reflexivity|]. cbn [map fst snd aget]. destruct (p =? q)%N; [reflexivity|exact IH]. Qed.
Lemma reader_of_again : forall n bs, exists g r', read_exact n (reader_of bs) = (g, if length bs <? n then Some UnexpectedEof else None, r') /\
  (n <= length bs -> g = firstn n bs).
Proof.
  intros n bs. destruct (reads_as_again (reader_of bs) bs n) as (g & r' & E & G).
  - split; [|reflexivity]. destruct bs as [|b bs]; [exists 1; reflexivity|]. exists 0. rewrite transcript_data by discriminate. symmetry. apply app_nil_r.
  - exists g, r'. split; [|exact G]. rewrite E. destruct (Nat.leb_spec n (length bs)), (Nat.ltb_spec (length bs) n); try reflexivity; lia.
Qed.
Lemma copy_files : forall readers l k w, copy_groups (map (fun x => (fst x, file_input (snd x))) readers) k l w = write_groups_to readers l w.
Proof.
  intros readers. induction l as [|p l IH]; intros k w; [reflexivity|]. cbn [copy_groups write_groups_to]. rewrite aget_files.
  destruct (aget (pt_path p) readers) as [bs|]; [|reflexivity]. cbn [option_map file_input in_again].
  destruct (reader_of_again (pt_size p) (skipn (pt_offset p) bs)) as (g & r' & E & G). rewrite E.
  destruct (Nat.ltb_spec (length (skipn (pt_offset p) bs)) (pt_size p)) as [L|L]; [reflexivity|]. rewrite <- G by exact L.
  destruct (write_all g w) as [[e|] w']; [reflexivity|apply IH].
Qed.
(* On files that stay as they are this is the model of C18 - C22, C57, C58, C77 and C78, whatever the files hold *)
Theorem C82_agrees : forall h hl fs m w,
  (forall r, lo_inputs hl (map (fun x => (fst x, file_input (snd x))) r) = map (fun x => (fst x, file_input (snd x))) (ho_readers h r)) ->
  lo_index hl = ho_index h -> hash_ok h -> (forall p bs, In p (mg_paths m) -> fs p = Some bs -> bytes_ok bs) ->
  eventually (merge_live hl (fun p => option_map file_input (fs p)) m w) (Some (merge_to h fs m w)).
Proof.
  intros h hl fs m w HI HX [HP _] OK. unfold merge_live, merge_to. assert (O := open_files fs (mg_paths m) []). cbn [map] in O. rewrite O.
  destruct (open_readers fs (mg_paths m) []) as [readers|e] eqn:ER; [|exists 0; reflexivity].
  rewrite HI, map_map. cbn [fst snd file_input in_first].
  assert (B : Forall (fun x => bytes_ok (snd x)) (ho_readers h readers)).
  { apply (Permutation_Forall (HP readers)). apply Forall_forall. intros [p bs] I.
    destruct (in_dec N.eq_dec p (mg_paths m)) as [IP|NI].
    - assert (OP : forall q, In q (mg_paths m) -> fs q <> None).
      { intros q J E. destruct (open_readers_err fs (mg_paths m) []) as (k & Q); [eauto|]. rewrite ER in Q. discriminate. }
      destruct (open_readers_ok fs (mg_paths m) []) as (r2 & E2 & _ & HM & _); [exact OP|constructor|intros ? ? []|].
      rewrite ER in E2. injection E2 as <-. apply (OK p); [exact IP|]. apply HM. exact I.
    - exfalso. apply NI. assert (OP : forall q, In q (mg_paths m) -> fs q <> None).
      { intros q J E. destruct (open_readers_err fs (mg_paths m) []) as (k & Q); [eauto|]. rewrite ER in Q. discriminate. }
      destruct (open_readers_ok fs (mg_paths m) []) as (r2 & E2 & _ & HM & HK); [exact OP|constructor|intros ? ? []|].
      rewrite ER in E2. injection E2 as <-. destruct (HK p) as [K _]. destruct K as [K|[]]; [apply (in_map fst) in I; exact I|exact K]. }
  destruct (C79_agrees_merge m (ho_readers h readers) [] B) as (n0 & EV). exists n0. intros n L.
  specialize (EV n L). rewrite EV. destruct (build_index m (ho_readers h readers) []) as [index|]; cbn [obind]; [|reflexivity].
  rewrite copy_files, HX. reflexivity.
Qed.
Print Assumptions C82_agrees.

(* A read error inside a packet, in the first reading: g is the beginning of a packet that is lost, and w a standalone packet
   behind it. The merge succeeds, but what it writes is not w: it is as many bytes, from the beginning of g on. *)
Theorem C82_read_error_refuted : forall h ins m p i g k w t, order_ok h -> mg_order m = [] ->
  mg_paths m = [p] -> ins p = Some i ->
  transcript (evs (in_first i)) = map TByte g ++ TErr k :: map TByte (wire_bytes w) -> fin (in_first i) = AtEof -> reads_now i (g ++ wire_bytes w) ->
  bytes_ok g -> incomplete g -> (6 <= length g -> (N.of_nat (wire_len g) <= 65536)%N) -> k <> UnexpectedEof ->
  wire_ok w -> (N.of_nat (length (wire_bytes w)) <= 65536)%N -> sequence_flags (w_header w) = 3%N ->
  mg_time m (mkPacket (w_header w) (wire_bytes w) 0) = Some t -> within m t -> requested m (apid (w_header w)) ->
  exists w', eventually (merge_live h ins m (mkWriter [] Accepts [])) (Some (Val (Ok tt, w'))) /\
    w_got w' = firstn (length (wire_bytes w)) (g ++ wire_bytes w).
Proof.
  intros h ins m p i g k w t H EO EP EI T F RN BG IG HG NK HW HL FL TM WT RQ.
  set (pkt := mkPacket (w_header w) (wire_bytes w) 0). set (gr := mkGroup (apid_of pkt) [pkt]).
  assert (G : grouping [pkt] [gr]) by (apply grouping_standalone; [exact FL|constructor]).
  assert (GR : group_reads (pdec_new (in_first i)) [gr] Returned).
  { assert (Y : yields pdec_next (pdec_new (in_first i)) (map Ok (packets_at 0 []) ++ Err (Io k) :: map Ok (packets_at 0 [w]))).
    { apply (C63_offsets_after_error_refuted [] g k [w] []); try assumption; try constructor; try assumption; try constructor.
      - cbn. lia.
      - cbn. lia.
      - cbn [map concat app]. rewrite !app_nil_r. exact T. }
    destruct (reads_yields _ _ _ _ _ Y) as (s' & R). eapply gr_end; [exact R|exact G|]. intros (init & x & E & NC).
    apply NC. destruct init as [|y init]; [|destruct init; discriminate]. injection E as <-. exists pkt. auto. }
  assert (AF : all_found ins (with_apid_order m []) (fun _ => [gr])).
  { rewrite C19_without_order by exact EO. intros q I. rewrite EP in I. destruct I as [<-|[]]. exists i. auto. }
  destruct (C82_changed_files h ins m [] (fun _ => [gr]) (fun _ => g ++ wire_bytes w) (mkWriter [] Accepts []) EO H AF) as (sel & bl & r & w' & EV & CH & _ & FA & END).
  { intros q j I E. rewrite C19_without_order in I by exact EO. rewrite EP in I. destruct I as [<-|[]]. rewrite EI in E. injection E as <-. exact RN. }
  rewrite C19_without_order in EV, CH by exact EO.
  assert (CAND : candidate m (fun _ => [gr]) (p, gr)).
  { exists pkt, [], t. cbn [fst snd]. rewrite EP. split; [left; reflexivity|]. split; [left; reflexivity|]. split; [reflexivity|]. split; [right; exact FL|]. auto. }
  assert (ES : sel = [(p, gr)]).
  { destruct CH as (C1 & C2 & C3). assert (AL : forall x, In x sel -> x = (p, gr)).
    { intros x I. rewrite Forall_forall in C1. destruct (C1 x I) as (f & rest & t' & IP & IX & _). rewrite EP in IP. destruct IP as [IP|[]]. destruct IX as [IX|[]].
      rewrite (surjective_pairing x), <- IP, <- IX. reflexivity. }
    destruct (C3 _ CAND) as (x' & I & _). destruct sel as [|x [|y sel]]; [destruct I| |].
    - rewrite (AL x) by (left; reflexivity). reflexivity.
    - exfalso. cbn [map] in C2. inversion C2 as [|? ? N1 _]; subst. apply N1. left. rewrite (AL x), (AL y) by (cbn; auto). reflexivity. }
  subst sel. assert (PL : placed gr 0 (length (wire_bytes w))).
  { exists pkt, []. split; [reflexivity|]. split; [reflexivity|]. cbn [gr g_packets map list_sum fold_right pkt p_header].
    unfold wire_bytes. rewrite app_length, encode_length. destruct HW as (_ & _ & E). lia. }
  exists w'. destruct END as [(L & WR)|(x & X & (off & n & P & BY) & _)].
  - destruct bl as [|d [|]]; cbn in L; try discriminate. cbn [length firstn] in FA. inversion FA as [|? ? ? ? (off & n & P & _ & ->) _]; subst. cbn [fst snd] in *.
    destruct (placed_unique _ _ _ _ _ P PL) as [-> ->]. cbn [skipn concat] in WR. rewrite app_nil_r in WR.
    inversion WR as [WG ER|l y rest k' E1 E2 E3 E4]; subst; [|inversion E3]. split; [exact EV|]. exact WG.
  - exfalso. destruct (nth_error_In _ _ X) as [<-|[]]. cbn [fst snd] in *. destruct (placed_unique _ _ _ _ _ P PL) as [-> ->]. rewrite app_length in BY. lia.
Qed.
Print Assumptions C82_read_error_refuted.

(* ---- the merge command ---- *)
Lemma asked_is : forall a order, merger_of_args a order = asked_merger a order.
Proof. intros a order. unfold asked_merger, merger_of_args, merger_new, with_apids, with_from, with_to, with_apid_order. destruct (ma_from a), (ma_to a); reflexivity. Qed.
Lemma command_is : forall h creatable ex ins evs fin a order n, ma_clobber a = true \/ ex = false -> creatable (ma_output a) = true -> ma_inputs a <> [] ->
  asks_order a order ->
  merge_command_live h creatable ex ins evs fin a n =
    match merge_live h ins (asked_merger a order) (mkWriter evs fin []) n with
    | None => (Going, Some [])
    | Some Panic => (Aborted, Some [])
    | Some (Val (Ok _, w)) => (Exited Success, Some (w_got w))
    | Some (Val (Err _, w)) => (Exited Failure, Some (w_got w))
    end.
Proof.
  intros h creatable ex ins evs fin a order n MW CR NI AO. unfold merge_command_live.
  replace (negb (ma_clobber a) && ex) with false by (destruct MW as [-> | ->]; destruct (ma_clobber a); reflexivity).
  replace (match ma_apid_order_name a with Some name => apid_order name | None => Some match ma_apid_order a with Some o => o | None => [] end end) with (Some order).
  - rewrite CR. cbn [negb]. destruct (ma_inputs a) as [|p l] eqn:EI; [congruence|]. cbn [is_nil]. rewrite asked_is. reflexivity.
  - unfold asks_order in AO. destruct (ma_apid_order_name a) as [name|]; [destruct AO as (-> & ->); reflexivity|]. destruct (ma_apid_order a); congruence.
Qed.
(* The command when the inputs can be read: the output file holds what C82_merge says, and success is reported if and only if
   that is all of it *)
Theorem C82_command : forall h creatable ex ins evs fin a order found, order_ok h ->
  ma_clobber a = true \/ ex = false -> creatable (ma_output a) = true -> ma_inputs a <> [] -> asks_order a order ->
  let m := asked_merger a order in all_found ins m found ->
  exists sel full failure x out, eventually (merge_command_live h creatable ex ins evs fin a) (Exited x, Some out) /\
    chosen m found sel /\ time_order m order sel /\ copied (again_of ins) sel full failure /\
    ((out = full /\ x = match failure with None => Success | Some _ => Failure end) \/
     (exists b rest k, full = out ++ b :: rest /\ first_failure evs fin k /\ x = Failure)).
Proof.
  intros h creatable ex ins evs fin a order found H MW CR NI AO m AF.
  destruct (C82_merge h ins _ order found (mkWriter evs fin []) (eq_refl : mg_order (mkMerger (ma_inputs a) cds_time [] (option_map to_micros (ma_from a)) (option_map to_micros (ma_to a)) (Some (ma_apids a))) = []) H AF)
    as (sel & full & failure & r & w' & (n0 & EV) & CH & TO & CO & WT).
  exists sel, full, failure, (match r with Ok _ => Success | Err _ => Failure end), (w_got w'). split; [|split; [exact CH|split; [exact TO|split; [exact CO|]]]].
  - exists n0. intros n L. rewrite (command_is h creatable ex ins evs fin a order n MW CR NI AO). unfold asked_merger. rewrite EV by exact L. destruct r; reflexivity.
  - destruct WT as [W|l b rest k W1 W2 W3]; cbn [w_got app] in *.
    + left. split; [exact W|]. destruct failure; reflexivity.
    + right. exists b, rest, k. rewrite W2. auto.
Qed.
Print Assumptions C82_command.
(* It neither ends nor reports anything when an input fails for ever, and is aborted when one breaks the decoder: in both cases
   the output has been emptied and stays empty *)
Theorem C82_command_hangs : forall h creatable ex ins evs fin a order found st, order_ok h ->
  ma_clobber a = true \/ ex = false -> creatable (ma_output a) = true -> ma_inputs a <> [] -> asks_order a order ->
  all_read ins (asked_merger a order) found st ->
  ((exists p, In p (ma_inputs a) /\ st p <> Returned) ->
     forall n, merge_command_live h creatable ex ins evs fin a n = (Going, Some []) \/ merge_command_live h creatable ex ins evs fin a n = (Aborted, Some [])) /\
  ((exists p, In p (ma_inputs a) /\ st p = Running) -> (forall p, In p (ma_inputs a) -> st p <> Panicking) ->
     forall n, merge_command_live h creatable ex ins evs fin a n = (Going, Some [])) /\
  ((exists p, In p (ma_inputs a) /\ st p = Panicking) -> (forall p, In p (ma_inputs a) -> st p <> Running) ->
     eventually (merge_command_live h creatable ex ins evs fin a) (Aborted, Some [])).
Proof.
  intros h creatable ex ins evs fin a order found st H MW CR NI AO AR.
  destruct (C82_index_fails h ins (asked_merger a order) found st (mkWriter evs fin []) H AR) as (A & B & C).
  split; [|split].
  - intros E n. rewrite (command_is h creatable ex ins evs fin a order n MW CR NI AO). destruct (A E n) as [-> | ->]; auto.
  - intros E NP n. rewrite (command_is h creatable ex ins evs fin a order n MW CR NI AO), B; auto.
  - intros E NP. destruct (C E NP) as (n0 & EV). exists n0. intros n L. rewrite (command_is h creatable ex ins evs fin a order n MW CR NI AO), EV by exact L. reflexivity.
Qed.
Print Assumptions C82_command_hangs.
(* It refuses without reading anything: the output is not touched if it exists and --clobber was not given, the order name is
   unknown or it cannot be created; it is emptied if there are no inputs or one of them cannot be opened. *)
Theorem C82_command_refuses : forall h creatable ex ins evs fin a n,
  ((ma_clobber a = false /\ ex = true) \/ (forall order, ~ asks_order a order) \/ creatable (ma_output a) = false ->
     merge_command_live h creatable ex ins evs fin a n = (Exited Failure, None)) /\
  (ma_clobber a = true \/ ex = false -> creatable (ma_output a) = true -> (exists order, asks_order a order) ->
     ma_inputs a = [] \/ (exists p, In p (ma_inputs a) /\ ins p = None) ->
     merge_command_live h creatable ex ins evs fin a n = (Exited Failure, Some [])).
Proof.
  intros h creatable ex ins evs fin a n. split.
  - intros R. unfold merge_command_live. destruct (negb (ma_clobber a) && ex) eqn:EC; [reflexivity|].
    destruct (match ma_apid_order_name a with Some name => apid_order name | None => Some match ma_apid_order a with Some o => o | None => [] end end) as [order|] eqn:EO; [|reflexivity].
    destruct R as [(RC & RX)|[R|R]]; [rewrite RC, RX in EC; discriminate| |rewrite R; reflexivity]. exfalso. apply (R order). unfold asks_order.
    destruct (ma_apid_order_name a) as [name|].
    + unfold apid_order in EO. destruct (list_eq_dec N.eq_dec name JPSS_VIIRS) as [->|]; [|discriminate]. injection EO as <-. split; reflexivity.
    + injection EO as <-. destruct (ma_apid_order a); reflexivity.
  - intros MW CR (order & AO) [E|E].
    + unfold merge_command_live. replace (negb (ma_clobber a) && ex) with false by (destruct MW as [-> | ->]; destruct (ma_clobber a); reflexivity).
      replace (match ma_apid_order_name a with Some name => apid_order name | None => Some match ma_apid_order a with Some o => o | None => [] end end) with (Some order).
      * rewrite CR, E. reflexivity.
      * unfold asks_order in AO. destruct (ma_apid_order_name a) as [name|]; [destruct AO as (-> & ->); reflexivity|]. destruct (ma_apid_order a); congruence.
    + assert (NI : ma_inputs a <> []) by (intro Q; rewrite Q in E; destruct E as (p & [] & _)).
      rewrite (command_is h creatable ex ins evs fin a order n MW CR NI AO).
      destruct (C82_unopened h ins (asked_merger a order) (mkWriter evs fin []) E) as (k & U). rewrite U. reflexivity.
Qed.
Print Assumptions C82_command_refuses.

(* ---- cases that meet the hypotheses ---- *)
Definition keep_order : live_order := mkLiveOrder (fun l => l) (fun l => l).
Lemma keep_order_ok : order_ok keep_order. Proof. split; intro; reflexivity. Qed.
(* The files of C18_ex. When they are read again, the device fails inside the third group. *)
Definition lv_bs (p : N) : list N := concat (map wire_bytes (mg_ws p)) ++ [8; 0; 0]%N.
Definition lv_input (p : N) : input :=
  mkInput (reader_of (lv_bs p)) (fun k off =>
    if k =? 2 then inr (mkReader (match firstn 4 (skipn off (lv_bs p)) with [] => [] | d => [EvFail Interrupted; EvData d] end) (Failing 5))
    else inr (reader_of (skipn off (lv_bs p)))).
Lemma reader_of_as : forall bs, reads_as (reader_of bs) bs.
Proof. intro bs. split; [|reflexivity]. destruct bs as [|b bs]; [exists 1; reflexivity|]. exists 0. rewrite transcript_data by discriminate. symmetry. apply app_nil_r. Qed.
Example C82_ex_same :
  (forall p, In p (mg_paths mg_m) -> exists i bs more, Some (lv_input p) = Some i /\ read_well (in_first i) bs (mg_ws p) /\ has_now i (bs ++ more)) /\
  exists w', merge_live keep_order (fun p => Some (lv_input p)) mg_m (mkWriter [] Accepts []) 50 = Some (Val (Err (Io (OtherIo 5)), w')) /\
    w_got w' = wire_bytes (mg_wire 900 1 9 21999 [3]%N) ++ wire_bytes (mg_wire 821 3 7 22000 [1]%N).
Proof.
  split.
  - intros p I. exists (lv_input p), (lv_bs p), []. split; [reflexivity|]. destruct (mg_readable p I) as (bs & E & FH). injection E as <-.
    split; [split; [exact FH|left; reflexivity]|]. intros k off. right. unfold lv_input. cbn [in_again]. rewrite app_nil_r. destruct (k =? 2).
    + eexists. split; [reflexivity|]. right. exists (firstn 4 (skipn off (lv_bs p))), (skipn 4 (skipn off (lv_bs p))). split; [symmetry; apply firstn_skipn|].
      left. split; [|eexists; reflexivity]. cbn [evs]. destruct (firstn 4 (skipn off (lv_bs p))) as [|b d]; [reflexivity|].
      cbn [transcript flat_map tokens_of_event app]. rewrite app_nil_r. reflexivity.
    + eexists. split; [reflexivity|]. left. apply reader_of_as.
  - eexists. split; vm_compute; reflexivity.
Qed.
(* two inputs that shrink, after an error between two packets: the merge gets as far as the places that are left *)
Definition sh_ws : list wire_packet := [mg_wire 821 3 7 22000 [1]; mg_wire 826 3 4 22001 [2]]%N.
Definition sh_input (left : nat) : input :=
  mkInput (mkReader [EvData (wire_bytes (mg_wire 821 3 7 22000 [1])); EvFail (OtherIo 5); EvData (wire_bytes (mg_wire 826 3 4 22001 [2]))]%N AtEof)
    (fun _ off => inr (reader_of (skipn off (firstn left (concat (map wire_bytes sh_ws)))))).
Example C82_ex_changed : forall left, reads_now (sh_input left) (firstn left (concat (map wire_bytes sh_ws))) /\
  read_well (in_first (sh_input left)) (concat (map wire_bytes sh_ws)) sh_ws.
Proof.
  intro left. split; [intros k off; eexists; split; [reflexivity|apply reader_of_as]|]. split.
  - split; [repeat constructor|]. split; [repeat constructor; vm_compute; discriminate|]. exists []. rewrite app_nil_r. split; [reflexivity|].
    split; [constructor|]. split; [apply incomplete_nil|cbn; lia].
  - right. exists []. rewrite app_nil_r. split; [reflexivity|]. split; [|reflexivity].
    change (transcript (evs (in_first (sh_input left)))) with
      (map TByte (wire_bytes (mg_wire 821 3 7 22000 [1]%N)) ++ TErr (OtherIo 5) :: map TByte (wire_bytes (mg_wire 826 3 4 22001 [2]%N)) ++ []).
    apply fb_packet, fb_error; [discriminate|]. apply fb_packet. apply (fb_rest []).
Qed.
Example C82_ex_shrunk : exists w', merge_live keep_order (fun _ => Some (sh_input 29)) (merger_new [0]%N cds_time) (mkWriter [] Accepts []) 50 =
    Some (Val (Err (Io UnexpectedEof), w')) /\ w_got w' = wire_bytes (mg_wire 821 3 7 22000 [1]%N).
Proof. eexists. split; vm_compute; reflexivity. Qed.
(* three bytes of a packet, an error, and a packet: 12 of its 15 bytes are written, after those three *)
Definition er_input : input :=
  mkInput (mkReader [EvData [11; 53; 192]; EvFail (OtherIo 5); EvData (wire_bytes (mg_wire 821 3 7 22000 [1]))]%N AtEof)
    (fun _ off => inr (reader_of (skipn off ([11; 53; 192]%N ++ wire_bytes (mg_wire 821 3 7 22000 [1]%N))))).
Example C82_ex_read_error : exists w', eventually (merge_live keep_order (fun _ => Some er_input) (merger_new [0]%N cds_time) (mkWriter [] Accepts [])) (Some (Val (Ok tt, w'))) /\
  w_got w' = [11; 53; 192]%N ++ firstn 12 (wire_bytes (mg_wire 821 3 7 22000 [1]%N)) /\ w_got w' <> wire_bytes (mg_wire 821 3 7 22000 [1]%N).
Proof.
  destruct (C82_read_error_refuted keep_order (fun _ => Some er_input) (merger_new [0]%N cds_time) 0%N er_input [11; 53; 192]%N (OtherIo 5)
    (mg_wire 821 3 7 22000 [1]%N) 3731097600000000000%Z) as (w' & E & G); try reflexivity; try (repeat constructor; fail); try discriminate.
  - exact keep_order_ok.
  - intros k off. eexists. split; [reflexivity|apply reader_of_as].
  - split; [vm_compute; discriminate|vm_compute; reflexivity].
  - exists w'. split; [exact E|]. rewrite G. split; vm_compute; [reflexivity|discriminate].
Qed.
(* a first input that fails for ever, and a command that waits for it *)
Example C82_ex_hangs : let dead := mkInput (mkReader [] (Failing 5)) (fun _ _ => inl (OtherIo 5)) in
  let a := mkMergeArgs None None None None [] true 9%N [0]%N in
  forall n, merge_command_live keep_order (fun _ => true) true (fun _ => Some dead) [] Accepts a n = (Going, Some []).
Proof.
  intros dead a. apply (C82_command_hangs keep_order (fun _ => true) true (fun _ => Some dead) [] Accepts a [] (fun _ => []) (fun _ => Running)).
  - exact keep_order_ok.
  - left. reflexivity.
  - reflexivity.
  - discriminate.
  - reflexivity.
  - intros p _. exists dead. split; [reflexivity|]. eapply (proj2 (proj2 (C79_group_inputs [] [] []))) with (c := 5%N); try reflexivity.
    + split; [constructor|]. split; [constructor|]. exists []. split; [reflexivity|]. split; [constructor|]. split; [apply incomplete_nil|cbn; lia].
    + exists []. split; [constructor|]. left. split; [reflexivity|]. intros [|] g E; discriminate.
  - exists 0%N. split; [left; reflexivity|reflexivity].
  - discriminate.
Qed.
