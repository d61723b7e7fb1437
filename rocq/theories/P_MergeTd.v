(* C89: the merger with the library's time decoder. *)
From Coq Require Import Permutation.
From Verif Require Import Base S_Bits S_Packet S_Timecode M_Packet M_Group M_Timecode M_Reader M_Merge M_MergeTd
  S_Group S_Merge S_AnyFile S_MergeTd L_Base L_Bits L_Packet L_Group L_Merge P_Timecode P_Merge P_AnyFile.
Open Scope nat_scope.

(* ---- the decoder ---- *)
Lemma format_for_ex : forall d regs a, exists f, format_for d regs a f /\ In f (d :: map fst regs).
Proof.
  intros d regs a. induction regs as [|[f apids] regs IH] using rev_ind.
  - exists d. split; [right; split; [reflexivity|intros r []]|left; reflexivity].
  - destruct (in_dec N.eq_dec a apids) as [I|I].
    + exists f. split; [left; exists regs, apids, []; split; [reflexivity|split; [exact I|intros r []]]|].
      right. rewrite map_app. apply in_or_app. right. left. reflexivity.
    + destruct IH as (g & F & J). exists g. split.
      * destruct F as [(b & ap & af & -> & A & N)|[-> N]]; [left|right].
        -- exists b, ap, (af ++ [(f, apids)]). split; [rewrite <- app_assoc; reflexivity|]. split; [exact A|]. intros r R. apply in_app_or in R. destruct R as [R|[<-|[]]]; [apply N; exact R|exact I].
        -- split; [reflexivity|]. intros r R. apply in_app_or in R. destruct R as [R|[<-|[]]]; [apply N; exact R|exact I].
      * rewrite map_app. destruct J as [J|J]; [left; exact J|right; apply in_or_app; left; exact J].
Qed.
Lemma decoder_decode : forall ovf d regs p f, format_for d regs (apid (p_header p)) f -> 6 <= length (p_data p) ->
  tdecoder_decode ovf (decoder d regs) p = timecode_decode ovf f (skipn 6 (p_data p)).
Proof.
  intros ovf d regs p f [(b & ap & af & -> & A & N)|[-> N]] L; unfold decoder.
  - eapply C17_registered_format; eassumption.
  - eapply C17_default_format; eassumption.
Qed.
Lemma panics_exact : forall ovf f body, bytes_ok body ->
  (timecode_decode ovf f body = Panic <-> time_panics ovf f body).
Proof.
  intros ovf f body B. destruct f as [nd ns|nc nf mu].
  - rewrite (C16_cds_panic_exact ovf nd ns body B). unfold time_panics. split.
    + intros [L C]. exists nd, ns. auto.
    + intros (nd' & ns' & E & L & C). injection E as <- <-. auto.
  - split; [intro C; destruct (C16_cuc_never_panics _ _ _ _ _ C)|intros (nd & ns & E & _); discriminate].
Qed.
Lemma time_value : forall ovf f body t, bytes_ok body -> common f -> cds_time_is f body t ->
  (timecode_decode ovf f body = match t with Some z => Val (Ok (mkEpoch UTC z)) | None => timecode_decode ovf f body end) /\
  (t = None -> exists e, timecode_decode ovf f body = Val (Err e)).
Proof.
  intros ovf f body t B (nd & ns & -> & L1 & L2) (nd' & ns' & E & ->). injection E as <- <-.
  destruct (Nat.leb_spec (nd + ns + 4) (length body)) as [L|L].
  - split; [apply C13_cds_value; assumption|discriminate].
  - split; [reflexivity|]. intros _. rewrite C13_cds_short by exact L. eauto.
Qed.

(* ---- the index ---- *)
Section Td.
Context (ovf : bool) (td : tdecoder).
Definition starts (g : pgroup) (p : packet) : Prop := exists rest, g_packets g = p :: rest /\ (is_first p || is_standalone p) = true.
Lemma ptr_td_panic : forall m path g, group_ptr_td ovf td m path g = Panic <-> exists p, starts g p /\ td_time ovf td p = Panic.
Proof.
  intros m path g. unfold group_ptr_td. split.
  - destruct (g_packets g) as [|p rest] eqn:E; [discriminate|]. destruct (is_first p || is_standalone p) eqn:K; [|discriminate]. cbn [negb].
    destruct (td_time ovf td p) as [[t|]|] eqn:T; cbn [obind]; [|discriminate|].
    + destruct (t <? from_nanos m)%Z; [discriminate|]. destruct (to_nanos m <=? t)%Z; [discriminate|].
      destruct (negb _ && negb _); discriminate.
    + intros _. exists p. split; [exists rest; auto|exact T].
  - intros (p & (rest & -> & K) & T). rewrite K. cbn [negb]. rewrite T. reflexivity.
Qed.
Lemma ptrs_td_panic : forall m path gs, group_ptrs_td ovf td m path gs = Panic <-> exists g p, In g gs /\ starts g p /\ td_time ovf td p = Panic.
Proof.
  intros m path gs. induction gs as [|g gs IH]; cbn [group_ptrs_td].
  - split; [discriminate|]. intros (g & p & [] & _).
  - pose proof (ptr_td_panic m path g) as G. destruct (group_ptr_td ovf td m path g) as [o|]; cbn [obind].
    + destruct (group_ptrs_td ovf td m path gs) as [l|]; cbn [obind].
      * split; [discriminate|]. intros (g' & p & [<-|I] & K & T); [discriminate (proj2 G (ex_intro _ p (conj K T)))|exfalso; assert (X : Val l = Panic) by (apply IH; exists g', p; auto); discriminate X].
      * split; [|reflexivity]. intros _. destruct (proj1 IH eq_refl) as (g' & p & I & K). exists g', p. split; [right; exact I|exact K].
    + split; [|reflexivity]. intros _. destruct (proj1 G eq_refl) as (p & K). exists g, p. split; [left; reflexivity|exact K].
Qed.
Lemma ptrs_td_same : forall m path gs, (forall g p, In g gs -> starts g p -> td_time ovf td p = Val (mg_time m p)) ->
  group_ptrs_td ovf td m path gs = Val (filter_map_opt (group_ptr m path) gs).
Proof.
  intros m path gs. induction gs as [|g gs IH]; intros H; cbn [group_ptrs_td filter_map_opt]; [reflexivity|].
  assert (E : group_ptr_td ovf td m path g = Val (group_ptr m path g)).
  { unfold group_ptr_td, group_ptr. destruct (g_packets g) as [|p rest] eqn:E; [reflexivity|].
    destruct (is_first p || is_standalone p) eqn:K; [|reflexivity]. cbn [negb].
    rewrite (H g p) by ((left; reflexivity) || (exists rest; auto)). cbn [obind]. destruct (mg_time m p) as [t|]; [|reflexivity].
    destruct (t <? from_nanos m)%Z; [reflexivity|]. destruct (to_nanos m <=? t)%Z; [reflexivity|]. destruct (negb _ && negb _); reflexivity. }
  rewrite E. cbn [obind]. rewrite IH by (intros; eapply H; [right; eassumption|eassumption]). cbn [obind]. destruct (group_ptr m path g); reflexivity.
Qed.
Lemma ptrs_td_paths : forall m path gs l, group_ptrs_td ovf td m path gs = Val l -> Forall (fun q => pt_path q = path) l.
Proof.
  intros m path gs. induction gs as [|g gs IH]; intros l H; cbn [group_ptrs_td] in H; [injection H as <-; constructor|].
  destruct (group_ptr_td ovf td m path g) as [o|] eqn:G; cbn [obind] in H; [|discriminate].
  destruct (group_ptrs_td ovf td m path gs) as [l'|]; cbn [obind] in H; [|discriminate]. specialize (IH l' eq_refl).
  destruct o as [q|]; injection H as <-; [|exact IH]. constructor; [|exact IH].
  unfold group_ptr_td in G. destruct (g_packets g) as [|p rest]; [discriminate|]. destruct (negb (is_first p || is_standalone p)); [discriminate|].
  destruct (td_time ovf td p) as [[t|]|]; cbn [obind] in G; try discriminate.
  destruct (t <? from_nanos m)%Z; [discriminate|]. destruct (to_nanos m <=? t)%Z; [discriminate|]. destruct (negb _ && negb _); [discriminate|].
  injection G as <-. reflexivity.
Qed.
Lemma index_td_panic : forall m readers index, build_index_td ovf td m readers index = Panic <->
  exists p bs, In (p, bs) readers /\ file_pointers_td ovf td m p bs = Panic.
Proof.
  intros m readers. induction readers as [|[q b] readers IH]; intros index; cbn [build_index_td].
  - split; [discriminate|]. intros (p & bs & [] & _).
  - destruct (file_pointers_td ovf td m q b) as [l|] eqn:F; cbn [obind].
    + rewrite IH. split; intros (p & bs & I & P).
      * exists p, bs. split; [right; exact I|exact P].
      * destruct I as [I|I]; [injection I as <- <-; congruence|eauto].
    + split; [|reflexivity]. intros _. exists q, b. split; [left; reflexivity|exact F].
Qed.
Lemma index_td_paths : forall m readers index l, build_index_td ovf td m readers index = Val l ->
  forall q, In q l -> In q index \/ In (pt_path q) (map fst readers).
Proof.
  intros m readers. induction readers as [|[p b] readers IH]; intros index l H q I; cbn [build_index_td] in H.
  - injection H as <-. left. exact I.
  - unfold file_pointers_td in H. destruct (file_packets b) as [ps|]; cbn [obind] in H; [|discriminate].
    destruct (file_groups ps) as [gs|]; cbn [obind] in H; [|discriminate].
    destruct (group_ptrs_td ovf td m p gs) as [l'|] eqn:G; cbn [obind] in H; [|discriminate].
    destruct (IH _ _ H q I) as [J|J]; [|right; right; exact J].
    assert (U : In q index \/ In q l').
    { unfold set_union in J. destruct (length (set_collect l') <=? length index).
      - clear -J. revert J. generalize (set_collect l') (proj1 (proj2 (collect_picks l'))). intros s Q J.
        assert (X : forall s index, In q (fold_left set_insert s index) -> In q index \/ In q s).
        { clear. induction s as [|x s IH]; intros index J; cbn [fold_left] in J; [left; exact J|].
          apply IH in J. destruct J as [J|J]; [|right; right; exact J]. unfold set_insert in J. destruct (existsb _ _); [left; exact J|].
          apply in_app_or in J. destruct J as [J|[J|[]]]; [left; exact J|right; left; exact J]. }
        apply X in J. destruct J as [J|J]; [left; exact J|right; apply Q; exact J].
      - clear -J. revert J. generalize (set_collect l') (proj1 (proj2 (collect_picks l'))). intros s Q J.
        assert (X : forall s index, In q (fold_left set_insert s index) -> In q index \/ In q s).
        { clear. induction s as [|x s IH]; intros index J; cbn [fold_left] in J; [left; exact J|].
          apply IH in J. destruct J as [J|J]; [|right; right; exact J]. unfold set_insert in J. destruct (existsb _ _); [left; exact J|].
          apply in_app_or in J. destruct J as [J|[J|[]]]; [left; exact J|right; left; exact J]. }
        apply X in J. destruct J as [J|J]; [right; apply Q; exact J|left; exact J]. }
    destruct U as [U|U]; [left; exact U|]. right. left. apply ptrs_td_paths in G. rewrite Forall_forall in G. symmetry. apply G. exact U.
Qed.
End Td.

Lemma packets_wire : forall ws off p, In p (packets_at off ws) -> Forall wire_ok ws ->
  bytes_ok (p_data p) /\ 7 <= length (p_data p).
Proof.
  induction ws as [|w ws IH]; intros off p I W; cbn [packets_at] in I; [destruct I|]. apply Forall_cons_iff in W. destruct W as [W1 W2].
  destruct I as [<-|I]; [|eapply IH; eassumption]. cbn [p_data]. destruct (wire_bytes_props w W1) as (A & B & _). auto.
Qed.
Lemma group_first_in : forall ps gs g p, grouping ps gs -> In g gs -> starts g p -> In p ps.
Proof.
  intros ps gs g p G I (rest & E & _). rewrite <- (grouping_concat _ _ G). apply in_concat. exists (g_packets g). split; [apply in_map; exact I|].
  rewrite E. left. reflexivity.
Qed.
Lemma starts_begins : forall g p, starts g p <-> begins_with g p.
Proof.
  intros g p. unfold starts, begins_with. split; intros (rest & E & K); exists rest; (split; [exact E|]).
  - apply orb_true_iff in K. destruct K as [K|K]; apply N.eqb_eq in K; [left|right]; exact K.
  - apply orb_true_iff. destruct K as [K|K]; [left|right]; apply N.eqb_eq; exact K.
Qed.

(* A decoder with formats of the common widths: merging is merging with the times that the formats define, so what C18 - C22
   say holds with these times. *)
Theorem C89_merge : forall ovf d regs h fs m ws, Forall common (d :: map fst regs) -> hash_ok h -> readable fs m ws ->
  (forall p f, (7 <= length (p_data p)) -> bytes_ok (p_data p) -> format_for d regs (apid (p_header p)) f ->
     cds_time_is f (skipn 6 (p_data p)) (mg_time m p)) ->
  merge_td ovf (decoder d regs) h fs m = merge h fs m /\
  exists sel, merge_td ovf (decoder d regs) h fs m = Val (Ok (concat (map group_bytes sel))) /\ selection m ws sel.
Proof.
  intros ovf d regs h fs m ws C H R T.
  assert (E : merge_td ovf (decoder d regs) h fs m = merge h fs m).
  2:{ split; [exact E|]. rewrite E. apply C18_merge_selection; assumption. }
  unfold merge_td, merge.
  assert (O : forall p, In p (mg_paths m) -> fs p <> None) by (intros p I; destruct (R p I) as (bs & F & _); congruence).
  destruct (open_readers_ok fs (mg_paths m) [] O) as (rd & E & _ & HR & KR); [constructor|intros p bs []|]. rewrite E.
  assert (B : forall p bs, In (p, bs) (ho_readers h rd) -> file_holds bs (ws p)).
  { intros p bs I. assert (I' : In (p, bs) rd) by (eapply Permutation_in; [symmetry; apply H|exact I]).
    destruct (R p) as (bs' & F & FH).
    - assert (K : In p (map fst rd)) by (apply (in_map fst) in I'; exact I'). apply KR in K. destruct K as [K|[]]. exact K.
    - rewrite (HR _ _ I') in F. injection F as ->. exact FH. }
  assert (X : forall index, build_index_td ovf (decoder d regs) m (ho_readers h rd) index = build_index m (ho_readers h rd) index).
  { clear E. revert B. generalize (ho_readers h rd). intros l. induction l as [|[p bs] l IH]; intros B index; cbn [build_index_td build_index]; [reflexivity|].
    assert (F : file_pointers_td ovf (decoder d regs) m p bs = file_pointers m p bs).
    { unfold file_pointers_td, file_pointers. specialize (B p bs (or_introl eq_refl)). rewrite (file_packets_ok _ _ B). cbn [obind].
      destruct (grouping_total (packets_at 0 (ws p))) as [gs G]. rewrite (file_groups_ok _ _ G). cbn [obind].
      rewrite ptrs_td_same; [reflexivity|]. intros g q I K.
      destruct (packets_wire _ _ q (group_first_in _ _ _ _ G I K)) as [W1 W2]; [apply B|].
      destruct (format_for_ex d regs (apid (p_header q))) as (f & F & J). rewrite Forall_forall in C. specialize (C f J).
      unfold td_time. rewrite (decoder_decode _ _ _ _ _ F) by lia. specialize (T q f W2 W1 F).
      assert (W3 : bytes_ok (skipn 6 (p_data q))) by (apply bytes_ok_skipn; exact W1).
      destruct (time_value ovf f _ _ W3 C T) as [V1 V2]. destruct (mg_time m q) as [z|]; [rewrite V1; reflexivity|].
      destruct (V2 eq_refl) as (e & ->). reflexivity. }
    rewrite F. destruct (file_pointers m p bs); cbn [obind]; [|reflexivity]. apply IH. intros; apply B; right; assumption. }
  rewrite X. reflexivity.
Qed.
Print Assumptions C89_merge.

Lemma td_panics : forall ovf d regs h fs m, hash_ok h -> (forall p bs, fs p = Some bs -> bytes_ok bs) ->
  (merge_td ovf (decoder d regs) h fs m = Panic <->
   (forall p, In p (mg_paths m) -> fs p <> None) /\
   exists p bs, In p (mg_paths m) /\ fs p = Some bs /\
     ((exists ws, too_big bs ws) \/
      exists ws gs g q f, file_holds bs ws /\ grouping (packets_at 0 ws) gs /\ In g gs /\ begins_with g q /\
        format_for d regs (apid (p_header q)) f /\ time_panics ovf f (skipn 6 (p_data q)))).
Proof.
  intros ovf d regs h fs m H OK.
  assert (FP : forall p bs, fs p = Some bs -> (file_pointers_td ovf (decoder d regs) m p bs = Panic <->
     ((exists ws, too_big bs ws) \/
      exists ws gs g q f, file_holds bs ws /\ grouping (packets_at 0 ws) gs /\ In g gs /\ begins_with g q /\
        format_for d regs (apid (p_header q)) f /\ time_panics ovf f (skipn 6 (p_data q))))).
  { intros p bs F. assert (TP : forall q f, bytes_ok (p_data q) -> 7 <= length (p_data q) -> format_for d regs (apid (p_header q)) f -> In f (d :: map fst regs) ->
       (td_time ovf (decoder d regs) q = Panic <-> time_panics ovf f (skipn 6 (p_data q)))).
    { intros q f B L FF I. unfold td_time. rewrite (decoder_decode _ _ _ _ _ FF) by lia.
      rewrite <- panics_exact by (apply bytes_ok_skipn; exact B).
      destruct (timecode_decode ovf f (skipn 6 (p_data q))) as [[e|e]|]; split; intros; congruence || discriminate. }
    assert (FI : forall a f, format_for d regs a f -> In f (d :: map fst regs)).
    { intros a f [(b & ap & af & -> & _)|[-> _]]; [|left; reflexivity]. right. rewrite map_app. apply in_or_app. right. left. reflexivity. }
    unfold file_pointers_td. destruct (C78_every_file bs (OK p bs F)) as (ws & [FH|TB]).
    - rewrite (file_packets_ok _ _ FH). cbn [obind]. destruct (grouping_total (packets_at 0 ws)) as [gs G]. rewrite (file_groups_ok _ _ G). cbn [obind].
      pose proof (ptrs_td_panic ovf (decoder d regs) m p gs) as PP. destruct (group_ptrs_td ovf (decoder d regs) m p gs) as [l|]; cbn [obind].
      + split; [discriminate|]. intros H0. exfalso. destruct H0 as [(ws' & TB)|(ws' & gs' & g & q & f & FH' & G' & I & K & FF & T)].
        * eapply (C78_one_reading bs ws ws'). split; eassumption.
        * pose proof (proj1 (C78_one_reading bs ws ws') FH FH') as <-. pose proof (grouping_det _ _ _ G G') as <-. apply starts_begins in K.
          destruct (packets_wire _ _ q (group_first_in _ _ _ _ G I K)) as [W1 W2]; [apply FH|].
          assert (X : Val l = Panic) by (apply PP; exists g, q; split; [exact I|split; [exact K|apply (TP q f W1 W2 FF (FI _ _ FF)); exact T]]). discriminate X.
      + split; [|reflexivity]. intros _. right. destruct (proj1 PP eq_refl) as (g & q & I & K & T).
        destruct (packets_wire _ _ q (group_first_in _ _ _ _ G I K)) as [W1 W2]; [apply FH|].
        destruct (format_for_ex d regs (apid (p_header q))) as (f & FF & J). exists ws, gs, g, q, f.
        split; [exact FH|]. split; [exact G|]. split; [exact I|]. split; [apply starts_begins; exact K|]. split; [exact FF|]. apply (TP q f W1 W2 FF J). exact T.
    - rewrite (file_packets_panic _ _ TB). cbn [obind]. split; [|reflexivity]. intros _. left. exists ws. exact TB. }
  unfold merge_td. split.
  - intros P. assert (O : forall p, In p (mg_paths m) -> fs p <> None).
    { intros p I E. destruct (open_readers_err fs (mg_paths m) []) as (e & E'); [eauto|]. rewrite E' in P. discriminate. }
    split; [exact O|]. destruct (open_readers_ok fs (mg_paths m) [] O) as (rd & E & _ & HR & KR); [constructor|intros p bs []|]. rewrite E in P.
    assert (PM : forall x, In x rd <-> In x (ho_readers h rd)) by (intros x; split; apply Permutation_in; [|symmetry]; apply H).
    destruct (build_index_td ovf (decoder d regs) m (ho_readers h rd) []) as [l|] eqn:BI; cbn [obind] in P.
    + exfalso. pose proof (index_td_paths _ _ _ _ _ _ BI) as IP.
      assert (Q : forall l', (forall q, In q l' -> In q l) -> write_groups rd l' <> Panic).
      { induction l' as [|q l' IH]; intros I; cbn [write_groups]; [discriminate|].
        destruct (IP q (I q (or_introl eq_refl))) as [[]|J]. apply in_map_iff in J. destruct J as ([p bs] & E1 & J). cbn [fst] in E1. subst p. apply PM in J.
        destruct (aget (pt_path q) rd) as [b|] eqn:A; [|exfalso; apply aget_none in A; apply A; apply (in_map fst) in J; exact J].
        destruct (_ <? _); [discriminate|]. specialize (IH (fun x Hx => I x (or_intror Hx))).
        destruct (write_groups rd l') as [[o|e]|]; cbn; [discriminate|discriminate|contradiction]. }
      apply (Q (sort_index (ho_index h l))); [|exact P]. intros q J.
      eapply Permutation_in; [symmetry; apply (proj2 H)|]. eapply Permutation_in; [symmetry; apply sort_perm|exact J].
    + apply index_td_panic in BI. destruct BI as (p & bs & I & Q). apply PM in I. pose proof (HR _ _ I) as F. exists p, bs.
      split; [apply (in_map fst) in I; apply KR in I; destruct I as [I|[]]; exact I|]. split; [exact F|]. apply FP in Q; [exact Q|exact F].
  - intros (O & p & bs & I & F & Q). destruct (open_readers_ok fs (mg_paths m) [] O) as (rd & E & _ & HR & KR); [constructor|intros p' bs' []|]. rewrite E.
    assert (J : In (p, bs) (ho_readers h rd)).
    { eapply Permutation_in; [apply H|]. assert (K : In p (map fst rd)) by (apply KR; left; exact I). apply in_map_iff in K. destruct K as ([p' b'] & K1 & K2).
      cbn [fst] in K1. subst p'. rewrite (HR _ _ K2) in F. injection F as ->. exact K2. }
    assert (X : build_index_td ovf (decoder d regs) m (ho_readers h rd) [] = Panic) by (apply index_td_panic; exists p, bs; split; [exact J|apply (FP p bs F); exact Q]).
    rewrite X. reflexivity.
Qed.
(* The merge panics exactly if all files can be opened and one of them has a packet that is too long (C05), or a group that
   begins with a first or standalone packet whose time cannot be decoded without a panic (C16). Nothing has been written then. *)
Theorem C89_panics : forall ovf d regs h fs m, only_cds d regs -> hash_ok h -> (forall p bs, fs p = Some bs -> bytes_ok bs) ->
  (merge_td ovf (decoder d regs) h fs m = Panic <->
   (forall p, In p (mg_paths m) -> fs p <> None) /\
   exists p bs, In p (mg_paths m) /\ fs p = Some bs /\
     ((exists ws, too_big bs ws) \/
      exists ws gs g q f, file_holds bs ws /\ grouping (packets_at 0 ws) gs /\ In g gs /\ begins_with g q /\
        format_for d regs (apid (p_header q)) f /\ time_panics ovf f (skipn 6 (p_data q)))).
Proof.
  intros ovf d regs h fs m _. apply td_panics.
Qed.
Print Assumptions C89_panics.

(* The times that C89_merge asks for: what the decoder itself returns. *)
Theorem C89_times : forall ovf d regs p f, Forall common (d :: map fst regs) -> 7 <= length (p_data p) -> bytes_ok (p_data p) ->
  format_for d regs (apid (p_header p)) f ->
  cds_time_is f (skipn 6 (p_data p)) (match tdecoder_decode ovf (decoder d regs) p with Val (Ok e) => Some (ep_nanos e) | _ => None end).
Proof.
  intros ovf d regs p f C L B F. rewrite (decoder_decode _ _ _ _ _ F) by lia.
  assert (I : In f (d :: map fst regs)).
  { destruct F as [(b & ap & af & -> & _)|[-> _]]; [|left; reflexivity]. right. rewrite map_app. apply in_or_app. right. left. reflexivity. }
  rewrite Forall_forall in C. destruct (C f I) as (nd & ns & -> & L1 & L2). exists nd, ns. split; [reflexivity|].
  assert (B' : bytes_ok (skipn 6 (p_data p))) by (apply bytes_ok_skipn; exact B).
  destruct (Nat.leb_spec (nd + ns + 4) (length (skipn 6 (p_data p)))) as [K|K].
  - rewrite C13_cds_value by assumption. reflexivity.
  - rewrite C13_cds_short by exact K. reflexivity.
Qed.
Print Assumptions C89_times.

(* ---- a concrete case: C18's files with a decoder that has a format of its own for apid 900 ---- *)
Definition td_regs : registered := [(Cds 3 0, [821%N; 900%N]); (Cds 2 0, [900%N]); (Cds 2 2, [821%N])].
Definition td_m : merger := with_apid_order (merger_new [0; 1]%N
  (fun p => match tdecoder_decode true (decoder (Cds 2 2) td_regs) p with Val (Ok e) => Some (ep_nanos e) | _ => None end)) [826; 821]%N.
Example C89_ex : Forall common (Cds 2 2 :: map fst td_regs) /\ readable mg_fs td_m mg_ws /\
  merge_td true (decoder (Cds 2 2) td_regs) reversed mg_fs td_m = Val (Ok (concat (map wire_bytes
    [mg_wire 900 1 9 21999 [3]; mg_wire 821 3 7 22000 [1]; mg_wire 826 3 4 22000 [2]]%N))) /\
  format_for (Cds 2 2) td_regs 900 (Cds 2 0) /\ format_for (Cds 2 2) td_regs 826 (Cds 2 2).
Proof.
  split; [repeat constructor; eexists; eexists; (split; [reflexivity|]); lia|].
  split; [exact mg_readable|]. split; [vm_compute; reflexivity|]. split.
  - left. exists [(Cds 3 0, [821%N; 900%N])], [900%N], [(Cds 2 2, [821%N])]. split; [reflexivity|]. split; [left; reflexivity|].
    intros r [<-|[]] [E|[]]. discriminate E.
  - right. split; [reflexivity|]. intros r I. cbn in I. repeat (destruct I as [<-|I]; [cbn; intuition discriminate|]). destruct I.
Qed.
(* days of 5 bytes: every long enough packet makes the merger panic; picoseconds: only in a build that checks overflow *)
Example C89_ex_panic :
  merge_td false (decoder (Cds 5 0) []) in_order mg_fs td_m = Panic /\
  merge_td true (decoder (Cds 2 2) [(Cds 2 4, [821%N])]) in_order (fun _ => Some (wire_bytes (mg_wire 821 3 7 22000 [0; 16; 200]%N))) td_m = Val (Ok (wire_bytes (mg_wire 821 3 7 22000 [0; 16; 200]%N))) /\
  merge_td true (decoder (Cds 2 2) [(Cds 2 4, [821%N])]) in_order
    (fun _ => Some (wire_bytes (mkWire (mkHeader 0 0 true 821 3 7 9) [85; 240; 0; 0; 0; 0; 0; 0; 16; 199]%N))) td_m = Panic.
Proof. split; [|split]; vm_compute; reflexivity. Qed.
