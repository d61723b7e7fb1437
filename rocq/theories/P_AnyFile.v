(* C78: files with any contents *)
From Coq Require Import Permutation Sorted.
From Verif Require Import Base S_Diff S_Bits S_Packet M_Reader M_Packet M_Group S_Group M_Timecode L_Base L_Packet L_Group M_Merge S_Merge L_Merge M_Cli S_Cli
  M_Main S_Main S_AnyFile P_Group P_Merge P_CliFilter P_CliDiff P_CliDiff2 P_CliInfo P_Main P_Main2.
Open Scope nat_scope.

Lemma wire_of_bytes : forall b, bytes_ok b -> 6 <= length b -> length b = wire_len b ->
  exists w, wire_ok w /\ wire_bytes w = b.
Proof.
  intros b B L W. exists (mkWire (spec_header b) (skipn 6 b)).
  assert (E : encode_header (spec_header b) = firstn 6 b).
  { apply spec_header_inj; [apply encode_bytes_ok, spec_header_ok|apply bytes_ok_firstn; exact B|reflexivity|rewrite firstn_length; lia|].
    rewrite <- (app_nil_r (encode_header _)), spec_header_encode by apply spec_header_ok. symmetry. apply spec_header_firstn; lia. }
  split.
  - split; [apply spec_header_ok|]. cbn [w_body w_header]. split; [apply bytes_ok_skipn; exact B|].
    rewrite skipn_length. unfold wire_len in W. unfold spec_header. cbn [len_minus1]. lia.
  - unfold wire_bytes. cbn [w_header w_body]. rewrite E. apply firstn_skipn.
Qed.

(* ---- C78: what a file holds ---- *)
Lemma incomplete_dec : forall bs, incomplete bs \/ (6 <= length bs /\ wire_len bs <= length bs).
Proof.
  intro bs. unfold incomplete. destruct (Nat.lt_ge_cases (length bs) 6) as [L|L]; [left; left; exact L|].
  destruct (Nat.lt_ge_cases (length bs) (wire_len bs)) as [M|M]; [left; right; exact M|right; split; assumption].
Qed.
Theorem C78_every_file : forall bs, bytes_ok bs -> exists ws, file_holds bs ws \/ too_big bs ws.
Proof.
  intros bs. remember (length bs) as n eqn:EN. assert (LN : length bs <= n) by lia. clear EN. revert bs LN.
  induction n as [n IH] using lt_wf_ind. intros bs LN B.
  destruct (Nat.lt_ge_cases (length bs) 6) as [L6|L6].
  { exists []. left. split; [constructor|]. split; [constructor|]. exists bs. split; [reflexivity|]. split; [exact B|]. split; [left; exact L6|]. intro C. lia. }
  destruct (N.le_gt_cases (N.of_nat (wire_len bs)) 65536) as [SM|BIG].
  2:{ exists []. right. split; [constructor|]. split; [constructor|]. exists bs. auto. }
  destruct (incomplete_dec bs) as [IN|[_ LE]].
  { exists []. left. split; [constructor|]. split; [constructor|]. exists bs. split; [reflexivity|]. split; [exact B|]. split; [exact IN|]. intro. exact SM. }
  assert (W7 := wire_len_ge bs).
  destruct (wire_of_bytes (firstn (wire_len bs) bs)) as (w & OK & WB).
  { apply bytes_ok_firstn. exact B. }
  { rewrite firstn_length. lia. }
  { rewrite firstn_length, Nat.min_l by exact LE. rewrite <- (firstn_skipn (wire_len bs) bs) at 1. rewrite wire_len_app; [reflexivity|]. rewrite firstn_length. lia. }
  assert (LW : (N.of_nat (length (wire_bytes w)) <= 65536)%N) by (rewrite WB, firstn_length, Nat.min_l by exact LE; exact SM).
  assert (EB : bs = wire_bytes w ++ skipn (wire_len bs) bs) by (rewrite WB; symmetry; apply firstn_skipn).
  destruct (IH (length (skipn (wire_len bs) bs))) with (bs := skipn (wire_len bs) bs) as (ws & [H|H]).
  { rewrite skipn_length. lia. }
  { reflexivity. }
  { apply bytes_ok_skipn. exact B. }
  - exists (w :: ws). left. destruct H as (A & C & tail & E & D). split; [constructor; assumption|]. split; [constructor; assumption|].
    exists tail. split; [|exact D]. rewrite EB at 1. rewrite E. cbn [map concat]. apply app_assoc.
  - exists (w :: ws). right. destruct H as (A & C & tail & E & D). split; [constructor; assumption|]. split; [constructor; assumption|].
    exists tail. split; [|exact D]. rewrite EB at 1. rewrite E. cbn [map concat]. apply app_assoc.
Qed.
Print Assumptions C78_every_file.

(* ---- reading ---- *)
Lemma ptok_roundtrip_panic : forall ws off f ts,
  Forall wire_ok ws -> Forall (fun w => N.of_nat (length (wire_bytes w)) <= 65536)%N ws ->
  forall l, panics_after ptok_next (mkPtok ts f (off + length (concat (map wire_bytes ws)))) l ->
  panics_after ptok_next (mkPtok (map TByte (concat (map wire_bytes ws)) ++ ts) f off)
         (map Ok (packets_at off ws) ++ l).
Proof.
  induction ws as [|w ws IH]; intros off f ts Hok Hlen l Hl.
  - cbn in *. rewrite Nat.add_0_r in Hl. exact Hl.
  - inversion Hok as [|? ? H1 H2]; inversion Hlen as [|? ? H3 H4]; subst. cbn [map concat packets_at app].
    destruct (wire_bytes_props w H1) as (Hb & L7 & LW & HH).
    rewrite map_app, <- app_assoc.
    eapply panics_cons.
    + rewrite ptok_packet; [rewrite HH; reflexivity|assumption|lia|lia|].
      rewrite LW. apply max_len_spec. assumption.
    + apply IH; [assumption..|]. cbn [map concat] in Hl. rewrite app_length in Hl.
      rewrite Nat.add_assoc in Hl. exact Hl.
Qed.
Theorem C78_reading : forall bs ws,
  (file_holds bs ws -> yields pdec_next (pdec_new (reader_of bs)) (map Ok (packets_at 0 ws))) /\
  (too_big bs ws -> panics_after pdec_next (pdec_new (reader_of bs)) (map Ok (packets_at 0 ws))).
Proof.
  intros bs ws. split.
  - intros (HW & HL & tail & -> & HB & HI & HT). apply decode_stream_plain; assumption.
  - intros (HW & HL & tail & -> & HB & L6 & BIG).
    assert (TT : transcript (evs (reader_of (concat (map wire_bytes ws) ++ tail))) = map TByte (concat (map wire_bytes ws) ++ tail)).
    { cbn [reader_of evs transcript flat_map]. rewrite app_nil_r. destruct (concat (map wire_bytes ws) ++ tail) eqn:E; [|reflexivity].
      apply app_eq_nil in E. destruct E as [_ ->]. cbn in L6. lia. }
    apply pdec_panics.
    + unfold pd_ok. cbn [pd_reader pdec_new]. rewrite TT. apply tbytes_ok_map, bytes_ok_app. split; [|assumption]. apply concat_wire_ok. assumption.
    + unfold ptok_of. cbn [pd_reader pd_offset pdec_new]. rewrite TT, map_app. cbn [reader_of fin].
      rewrite <- (app_nil_r (map Ok (packets_at 0 ws))). apply ptok_roundtrip_panic; [assumption..|].
      apply panics_nil. apply ptok_panic_iff. exists (firstn 6 tail), (map TByte (skipn 6 tail)). cbn [pk_toks].
      split; [rewrite <- map_app, firstn_skipn; reflexivity|]. split; [rewrite firstn_length; lia|].
      apply Nat.nle_gt. rewrite max_len_spec. rewrite <- (firstn_skipn 6 tail) in BIG. rewrite wire_len_app in BIG by (rewrite firstn_length; lia). lia.
Qed.
Print Assumptions C78_reading.

Lemma yields_panics : forall S A (next : S -> outcome (option A * S)) s l, yields next s l -> forall l', panics_after next s l' -> False.
Proof.
  intros S A next s l Y. induction Y as [s s' E|s s' a l E Y IH]; intros l' P; inversion P as [? E'|? ? ? ? E' P']; subst; try congruence.
  rewrite E in E'. injection E' as _ <-. eapply IH. exact P'.
Qed.
Lemma panics_unique : forall S A (next : S -> outcome (option A * S)) s l l', panics_after next s l -> panics_after next s l' -> l = l'.
Proof.
  intros S A next s l l' Y. revert l'. induction Y as [s E|s s' a items E Y IH]; intros l' Y'; inversion Y' as [? E'|? ? ? ? E' Y'']; subst; try congruence.
  rewrite E in E'. injection E' as <- <-. f_equal. apply IH. exact Y''.
Qed.
Lemma packets_at_inj : forall ws ws' off, map (@Ok packet) (packets_at off ws) = map Ok (packets_at off ws') -> Forall wire_ok ws -> Forall wire_ok ws' -> ws = ws'.
Proof.
  induction ws as [|w ws IH]; intros [|w' ws'] off E H H'; try discriminate; [reflexivity|].
  cbn [packets_at map] in E. apply Forall_inv_tail in H, H'.
  assert (E1 : w_header w = w_header w') by congruence. assert (E2 : wire_bytes w = wire_bytes w') by congruence.
  assert (E3 : map (@Ok packet) (packets_at (off + length (wire_bytes w)) ws) = map Ok (packets_at (off + length (wire_bytes w')) ws')) by congruence.
  rewrite <- E2 in E3. f_equal; [|eapply IH; eassumption].
  destruct w as [h b], w' as [h' b']. cbn [w_header] in E1. subst h'. f_equal. unfold wire_bytes in E2. cbn [w_header w_body] in E2. apply app_inv_head in E2. exact E2.
Qed.
(* and which it is, and the packets, are determined by the bytes *)
Theorem C78_one_reading : forall bs ws ws',
  (file_holds bs ws -> file_holds bs ws' -> ws = ws') /\ (too_big bs ws -> too_big bs ws' -> ws = ws') /\ ~ (file_holds bs ws /\ too_big bs ws').
Proof.
  intros bs ws ws'. split; [|split].
  - intros H H'. apply (packets_at_inj _ _ 0); [|apply H|apply H']. eapply yields_unique; eapply C78_reading; eassumption.
  - intros H H'. apply (packets_at_inj _ _ 0); [|apply H|apply H']. eapply panics_unique; eapply C78_reading; eassumption.
  - intros [H H']. eapply yields_panics; eapply C78_reading; eassumption.
Qed.
Print Assumptions C78_one_reading.

Lemma run_panics : forall S A (next : S -> outcome (option A * S)) fuel s l, panics_after next s l -> snd (run next fuel s) <> Finished.
Proof.
  intros S A next fuel. induction fuel as [|fuel IH]; intros s l P; [discriminate|]. cbn [run].
  inversion P as [? E|? s' a l' E P']; subst; rewrite E; [discriminate|].
  specialize (IH s' l' P'). destruct (run next fuel s') as [x e]. exact IH.
Qed.
Lemma file_items_panic : forall bs ws, too_big bs ws -> file_items bs = Panic.
Proof.
  intros bs ws H. apply C78_reading in H. unfold file_items, collect_run. apply run_panics with (fuel := S (S (length bs))) in H.
  destruct (run _ _ _) as [l e]. cbn [snd] in H. destruct e; try reflexivity. contradiction.
Qed.
Lemma file_packets_items : forall bs, file_packets bs = (let* items := file_items bs in Val (keep_ok items)).
Proof. reflexivity. Qed.
Lemma file_packets_panic : forall bs ws, too_big bs ws -> file_packets bs = Panic.
Proof. intros bs ws H. rewrite file_packets_items, (file_items_panic _ _ H). reflexivity. Qed.

(* ---- which commands panic ---- *)
Lemma not_bad : forall fs p bs, disk_ok fs -> aget p fs = Some bs -> ~ bad_file fs p -> exists ws, file_holds bs ws.
Proof.
  intros fs p bs D G NB. destruct (C78_every_file bs (D p bs G)) as (ws & [H|H]); [eauto|]. destruct NB. exists bs, ws. auto.
Qed.
Lemma bad_dec : forall fs p, disk_ok fs -> bad_file fs p \/ ~ bad_file fs p.
Proof.
  intros fs p D. destruct (aget p fs) as [bs|] eqn:G.
  - destruct (C78_every_file bs (D p bs G)) as (ws & [H|H]).
    + right. intros (bs' & ws' & G' & H'). replace bs' with bs in * by congruence. eapply (C78_one_reading bs ws ws'). split; eassumption.
    + left. exists bs, ws. auto.
  - right. intros (bs & ws & G' & _). congruence.
Qed.

Theorem C78_filter : forall creatable fs a, disk_ok fs ->
  (filter_command creatable fs a = Panic <->
   may_write fs (fa_clobber a) (fa_output a) /\ creatable (fa_output a) = true /\ fa_input a <> fa_output a /\ bad_file fs (fa_input a) /\
   exists include exclude, stands_for (fa_include a) include /\ stands_for (fa_exclude a) exclude /\
     ((exists v, In v (include ++ exclude) /\ (v < 65536)%N) \/ fa_before a <> None \/ fa_after a <> None)).
Proof.
  intros creatable fs a D. split.
  - intro P. unfold filter_command in P.
    destruct (negb (fa_clobber a) && exists_file fs (fa_output a)) eqn:EC; [discriminate|].
    destruct (aget (fa_input a) fs) as [bs|] eqn:GI; [|discriminate].
    destruct (creatable (fa_output a)) eqn:CR; cbn [negb] in P; [|discriminate].
    assert (MW : may_write fs (fa_clobber a) (fa_output a)).
    { unfold may_write. destruct (fa_clobber a); [left; reflexivity|]. cbn [negb andb] in EC. right. apply exists_file_iff. exact EC. }
    split; [exact MW|]. split; [reflexivity|].
    set (items := match aget (fa_input a) (aset (fa_output a) [] fs) with Some bs => file_items bs | None => Val [] end) in P.
    destruct (filter_main items (fa_include a) (fa_exclude a) (fa_before a) (fa_after a)) as [[out|]|] eqn:FM; cbn [obind] in P; try discriminate.
    clear P. unfold filter_main in FM.
    destruct (parse_number_ranges (fa_include a)) as [i|] eqn:PI; [|discriminate].
    destruct (parse_number_ranges (fa_exclude a)) as [e|] eqn:PE; [|discriminate].
    destruct (is_nil (to_u16s i) && is_nil (to_u16s e) && is_none (fa_before a) && is_none (fa_after a)) eqn:NF; [discriminate|].
    assert (NT : forall its, filter_cmd (map Ok its) (to_u16s i) (to_u16s e) (fa_before a) (fa_after a) <> Panic).
    { intros its C. unfold filter_cmd in C. rewrite NF in C. destruct (negb (is_none (fa_before a)) || negb (is_none (fa_after a))); [|discriminate].
      destruct (packets_with_times (map Ok its)) eqn:PT; [discriminate|]. clear -PT. revert PT. unfold packets_with_times.
      destruct (grouping_total its) as [gs G]. rewrite keep_ok_map, (file_groups_ok its gs G). discriminate. }
    assert (NE : fa_input a <> fa_output a).
    { intro C. unfold items in FM. rewrite C, aget_aset_eq in FM. change (file_items []) with (Val (map (@Ok packet) [])) in FM. cbn [obind] in FM. exact (NT _ FM). }
    unfold items in FM. rewrite aget_aset_neq, GI in FM by exact NE.
    split; [exact NE|]. split.
    + destruct (bad_dec fs (fa_input a) D) as [B|NB]; [exact B|]. exfalso. destruct (not_bad _ _ _ D GI NB) as [ws H].
      rewrite (file_items_ok _ _ H) in FM. cbn [obind] in FM. exact (NT _ FM).
    + exists i, e. split; [apply C50_parse_number_ranges; exact PI|]. split; [apply C50_parse_number_ranges; exact PE|].
      destruct (to_u16s i) as [|v vs] eqn:UI; [destruct (to_u16s e) as [|v vs] eqn:UE|].
      * right. destruct (fa_before a); [left; discriminate|]. destruct (fa_after a); [right; discriminate|discriminate].
      * left. exists v. assert (I : In v (to_u16s e)) by (rewrite UE; left; reflexivity). apply filter_In in I. destruct I as [I L]. apply N.ltb_lt in L.
        split; [apply in_or_app; right; exact I|exact L].
      * left. exists v. assert (I : In v (to_u16s i)) by (rewrite UI; left; reflexivity). apply filter_In in I. destruct I as [I L]. apply N.ltb_lt in L.
        split; [apply in_or_app; left; exact I|exact L].
  - intros (MW & CR & NE & (bs & ws & GI & B) & i & e & SI & SE & F). unfold filter_command. rewrite clobber_check, GI, CR by exact MW. cbn [negb].
    rewrite aget_aset_neq, GI by exact NE. rewrite (file_items_panic _ _ B). unfold filter_main. rewrite (stands_parse _ _ SI), (stands_parse _ _ SE).
    replace (is_nil (to_u16s i) && is_nil (to_u16s e) && is_none (fa_before a) && is_none (fa_after a)) with false; [reflexivity|].
    destruct F as [(v & I & L)|[F|F]].
    + apply in_app_or in I. destruct I as [I|I].
      * assert (J : In v (to_u16s i)) by (apply filter_In; split; [exact I|apply N.ltb_lt; exact L]). destruct (to_u16s i); [destruct J|]. reflexivity.
      * assert (J : In v (to_u16s e)) by (apply filter_In; split; [exact I|apply N.ltb_lt; exact L]). destruct (to_u16s e); [destruct J|]. cbn [is_nil]. rewrite andb_false_r. reflexivity.
    + destruct (fa_before a); [|contradiction]. cbn [is_none]. rewrite andb_false_r. reflexivity.
    + destruct (fa_after a); [|contradiction]. cbn [is_none]. rewrite !andb_false_r. reflexivity.
Qed.
Print Assumptions C78_filter.

Theorem C78_info : forall ovf fs input cds, disk_ok fs -> (info_command ovf fs input cds = Panic <-> bad_file fs input).
Proof.
  intros ovf fs input cds D. split.
  - intro P. destruct (bad_dec fs input D) as [B|NB]; [exact B|]. exfalso.
    destruct (aget input fs) as [bs|] eqn:G; [|unfold info_command in P; rewrite G in P; discriminate].
    destruct (not_bad _ _ _ D G NB) as [ws H]. destruct (C69_info_command ovf fs input bs ws cds G H) as (all & rows & E & _). congruence.
  - intros (bs & ws & G & B). unfold info_command. rewrite G, (file_items_panic _ _ B). reflexivity.
Qed.
Print Assumptions C78_info.

Lemma diff_ok : forall csum verbose wl wr,
  exists o d, diff_output csum verbose (map Ok (packets_at 0 wl)) (map Ok (packets_at 0 wr)) = Val o /\ diff_cmd csum (map Ok (packets_at 0 wl)) (map Ok (packets_at 0 wr)) = Val d.
Proof.
  intros csum verbose wl wr. unfold diff_output, diff_cmd. rewrite !keep_ok_map, !diff_keys_ok. cbn [obind].
  destruct (is_nil (map (wkey csum) wl) && is_nil (map (wkey csum) wr)); [eexists; eexists; split; reflexivity|].
  set (l := key_sort (map (wkey csum) wl)). set (r := key_sort (map (wkey csum) wr)).
  destruct (rows_loop (S (length l + length r)) l r 0) as (rows & E1 & E2 & _); try apply ksort_sorted; [lia|]. rewrite E1, E2.
  destruct (0 + N.of_nat (length rows))%N; eexists; eexists; split; reflexivity.
Qed.
Theorem C78_diff : forall csum fs verbose left right, disk_ok fs ->
  (diff_command csum fs verbose left right = Panic <-> bad_file fs left \/ aget left fs <> None /\ bad_file fs right).
Proof.
  intros csum fs verbose left right D. unfold diff_command.
  destruct (aget left fs) as [bl|] eqn:GL.
  2:{ split; [discriminate|]. intros [(bs & ws & G & _)|[C _]]; [congruence|contradiction]. }
  destruct (bad_dec fs left D) as [(bs & ws & G & B)|NB].
  { replace bs with bl in B by congruence. rewrite (file_items_panic _ _ B). cbn [obind]. split; [intros _; left; exists bl, ws; auto|reflexivity]. }
  destruct (not_bad _ _ _ D GL NB) as [wl HL]. rewrite (file_items_ok _ _ HL). cbn [obind].
  destruct (aget right fs) as [br|] eqn:GR.
  2:{ split; [discriminate|]. intros [C|[_ (bs & ws & G & _)]]; [contradiction|congruence]. }
  destruct (bad_dec fs right D) as [(bs & ws & G & B)|NB'].
  { replace bs with br in B by congruence. rewrite (file_items_panic _ _ B). cbn [obind]. split; [intros _; right; split; [discriminate|exists br, ws; auto]|reflexivity]. }
  destruct (not_bad _ _ _ D GR NB') as [wr HR]. rewrite (file_items_ok _ _ HR). cbn [obind].
  destruct (diff_ok csum verbose wl wr) as (o & d & E1 & E2). rewrite E1, E2. cbn [obind]. split; [discriminate|]. intros [C|[_ C]]; contradiction.
Qed.
Print Assumptions C78_diff.

Lemma build_index_panic : forall m readers index, (exists p bs ws, In (p, bs) readers /\ too_big bs ws) ->
  (forall p bs, In (p, bs) readers -> bytes_ok bs) -> build_index m readers index = Panic.
Proof.
  intros m readers. induction readers as [|[q b] readers IH]; intros index (p & bs & ws & I & B) OK; [destruct I|]. cbn [build_index].
  destruct (C78_every_file b (OK q b (or_introl eq_refl))) as (w & [H|H]).
  - unfold file_pointers. rewrite (file_packets_ok _ _ H). cbn [obind]. destruct (grouping_total (packets_at 0 w)) as [gs G]. rewrite (file_groups_ok _ _ G). cbn [obind].
    apply IH; [|intros; eapply OK; right; eassumption]. destruct I as [I|I]; [|exists p, bs, ws; auto].
    injection I as -> ->. exfalso. eapply (C78_one_reading bs w ws). split; eassumption.
  - unfold file_pointers. rewrite (file_packets_panic _ _ H). reflexivity.
Qed.
(* The inputs are opened after the output is created, so that one that is the output is then empty. *)
Theorem C78_merge : forall h creatable fs a, hash_ok h -> disk_ok fs ->
  (merge_command h creatable fs a = Panic <->
   may_write fs (ma_clobber a) (ma_output a) /\ creatable (ma_output a) = true /\ (exists order, asks_order a order) /\
   (forall p, In p (ma_inputs a) -> p <> ma_output a -> aget p fs <> None) /\
   exists p, In p (ma_inputs a) /\ p <> ma_output a /\ bad_file fs p).
Proof.
  intros h creatable fs a HH D. split.
  - intro P.
    destruct (negb (ma_clobber a) && exists_file fs (ma_output a)) eqn:EC; [unfold merge_command in P; rewrite EC in P; discriminate|].
    assert (MW : may_write fs (ma_clobber a) (ma_output a)).
    { unfold may_write. destruct (ma_clobber a); [left; reflexivity|]. cbn [negb andb] in EC. right. apply exists_file_iff. exact EC. }
    assert (AO : exists order, asks_order a order).
    { unfold merge_command in P. rewrite EC in P. unfold asks_order. destruct (ma_apid_order_name a) as [n|].
      - unfold apid_order in P. destruct (list_eq_dec N.eq_dec n JPSS_VIIRS) as [->|]; [eexists; split; reflexivity|discriminate].
      - destruct (ma_apid_order a); eexists; reflexivity. }
    assert (CR : creatable (ma_output a) = true).
    { unfold merge_command in P. rewrite EC in P. destruct (creatable (ma_output a)); [reflexivity|]. cbn [negb] in P. destruct (match ma_apid_order_name a with Some _ => _ | None => _ end); discriminate. }
    split; [exact MW|]. split; [exact CR|]. split; [exact AO|]. destruct AO as [order AO].
    unfold merge_command in P. rewrite EC, (asks_order_eq a order AO), CR in P. cbn [negb] in P.
    destruct (is_nil (ma_inputs a)) eqn:NI; [discriminate|]. set (fs1 := aset (ma_output a) [] fs) in P.
    assert (OPEN : forall p, In p (ma_inputs a) -> aget p fs1 <> None).
    { intros p I C. destruct (open_readers_err (fun p => aget p fs1) (ma_inputs a) []) as [e E]; [exists p; auto|].
      unfold merge, merge_written in P.
      replace (mg_paths (merger_of_args a order)) with (ma_inputs a) in P by (unfold merger_of_args, merger_new, with_apids, with_apid_order; destruct (ma_from a), (ma_to a); reflexivity).
      rewrite E in P. discriminate. }
    assert (O2 : forall p, In p (ma_inputs a) -> p <> ma_output a -> aget p fs <> None).
    { intros p I N. specialize (OPEN p I). unfold fs1 in OPEN. rewrite aget_aset_neq in OPEN by exact N. exact OPEN. }
    split; [exact O2|].
    assert (DEC : (exists p, In p (ma_inputs a) /\ p <> ma_output a /\ bad_file fs p) \/ forall p, In p (ma_inputs a) -> p = ma_output a \/ p <> ma_output a /\ ~ bad_file fs p).
    { clear -D. induction (ma_inputs a) as [|p l IH]; [right; intros p []|].
      destruct IH as [(q & I & H)|IH]; [left; exists q; split; [right; exact I|exact H]|].
      destruct (N.eq_dec p (ma_output a)) as [E|N]; [right; intros q [<-|I]; [left; exact E|apply IH; exact I]|].
      destruct (bad_dec fs p D) as [B|NB]; [left; exists p; split; [left; reflexivity|auto]|right; intros q [<-|I]; [right; auto|apply IH; exact I]]. }
    destruct DEC as [DEC|ALL]; [exact DEC|]. exfalso.
    assert (W : exists ws : N -> list wire_packet, forall p, In p (ma_inputs a) -> p = ma_output a /\ ws p = [] \/ p <> ma_output a /\ exists bs, aget p fs = Some bs /\ file_holds bs (ws p)).
    { clear -D O2 ALL. induction (ma_inputs a) as [|p l IH]; [exists (fun _ => []); intros p []|].
      destruct IH as [ws H]. { intros q I. apply O2. right. exact I. } { intros q I. apply ALL. right. exact I. }
      destruct (ALL p (or_introl eq_refl)) as [E|[N NB]].
      - exists (fun q => if N.eq_dec q p then [] else ws q). intros q I. destruct (N.eq_dec q p) as [->|NQ]; [left; auto|]. destruct I as [<-|I]; [contradiction|apply H; exact I].
      - destruct (aget p fs) as [bs|] eqn:G; [|destruct (O2 p (or_introl eq_refl) N G)]. destruct (not_bad _ _ _ D G NB) as [w HW].
        exists (fun q => if N.eq_dec q p then w else ws q). intros q I. destruct (N.eq_dec q p) as [->|NQ]; [right; split; [exact N|exists bs; auto]|].
        destruct I as [<-|I]; [contradiction|apply H; exact I]. }
    destruct W as [ws W]. destruct (C57_merge_command h creatable fs a order ws HH MW CR) as (sel & fs' & E & _).
    { intro C. rewrite C in NI. discriminate. } { exact AO. } { exact W. }
    unfold merge_command in E. rewrite EC, (asks_order_eq a order AO), CR in E. cbn [negb] in E. rewrite NI in E. fold fs1 in E. rewrite E in P. discriminate.
  - intros (MW & CR & (order & AO) & OPEN & p & I & N & bs & ws & G & B). unfold merge_command. rewrite clobber_check by exact MW. rewrite (asks_order_eq a order AO), CR. cbn [negb].
    destruct (is_nil (ma_inputs a)) eqn:NI; [destruct (ma_inputs a); [destruct I|discriminate]|].
    set (fs1 := aset (ma_output a) [] fs). set (m := merger_of_args a order).
    assert (PM : mg_paths m = ma_inputs a) by (unfold m, merger_of_args, merger_new, with_apids, with_apid_order; destruct (ma_from a), (ma_to a); reflexivity).
    destruct (open_readers_ok (fun p => aget p fs1) (ma_inputs a) []) as (r & ER & ND & HM & HK).
    { intros q IQ C. unfold fs1 in C. destruct (N.eq_dec q (ma_output a)) as [->|NQ]; [rewrite aget_aset_eq in C; discriminate|]. rewrite aget_aset_neq in C by exact NQ. exact (OPEN q IQ NQ C). }
    { constructor. } { intros q b []. }
    assert (PANIC : merge h (fun p => aget p fs1) m = Panic); [|rewrite PANIC; reflexivity].
    unfold merge. rewrite PM, ER. rewrite build_index_panic; [reflexivity| |].
    + assert (IK : In p (map fst r)) by (apply HK; left; exact I). apply in_map_iff in IK. destruct IK as ([p' bs'] & EP & IR). cbn [fst] in EP. subst p'.
      assert (EB := HM _ _ IR). cbv beta in EB. unfold fs1 in EB. rewrite aget_aset_neq, G in EB by exact N. injection EB as <-.
      exists p, bs, ws. split; [|exact B]. apply (Permutation_in _ (proj1 HH r)). exact IR.
    + intros q b IQ. apply (Permutation_in _ (Permutation_sym (proj1 HH r))) in IQ. apply HM in IQ. cbv beta in IQ. unfold fs1 in IQ.
      destruct (N.eq_dec q (ma_output a)) as [->|NQ]; [rewrite aget_aset_eq in IQ; injection IQ as <-; constructor|]. rewrite aget_aset_neq in IQ by exact NQ. exact (D q b IQ).
Qed.
Print Assumptions C78_merge.

Theorem C78_python : forall fs path, disk_ok fs ->
  (py_decode_packets fs path = Panic <-> bad_file fs path) /\ (py_decode_packet_groups fs path = Panic <-> bad_file fs path).
Proof.
  intros fs path D. unfold py_decode_packets, py_decode_packet_groups. destruct (aget path fs) as [bs|] eqn:G.
  2:{ split; (split; [discriminate|]); intros (bs & ws & G' & _); congruence. }
  destruct (bad_dec fs path D) as [B|NB].
  - assert (B' := B). destruct B' as (bs' & ws & G' & H). replace bs' with bs in H by congruence. rewrite (file_packets_panic _ _ H). split; split; auto.
  - destruct (not_bad _ _ _ D G NB) as [ws H]. rewrite (file_packets_ok _ _ H). cbn [obind]. destruct (grouping_total (packets_at 0 ws)) as [gs GR]. rewrite (file_groups_ok _ _ GR).
    split; (split; [discriminate|contradiction]).
Qed.
Print Assumptions C78_python.

(* a packet of apid 7, then a header announcing 65537 bytes: one more than the limit *)
Definition af_bytes : list N := [8; 7; 192; 0; 0; 1; 1; 2; 8; 7; 192; 1; 255; 250]%N.
Example C78_ex :
  disk_ok [(1, af_bytes); (2, [8; 7; 192]); (3, [8; 7; 192; 0; 255; 249])]%N /\
  bad_file [(1, af_bytes); (2, [8; 7; 192]); (3, [8; 7; 192; 0; 255; 249])]%N 1 /\
  ~ bad_file [(1, af_bytes); (2, [8; 7; 192]); (3, [8; 7; 192; 0; 255; 249])]%N 2 /\
  ~ bad_file [(1, af_bytes); (2, [8; 7; 192]); (3, [8; 7; 192; 0; 255; 249])]%N 3 /\
  filter_command (fun _ => true) [(1, af_bytes)]%N (mkFilterArgs [[55]] [] None None false 9 1)%N = Panic /\
  filter_command (fun _ => true) [(1, af_bytes)]%N (mkFilterArgs [] [] None None false 9 1)%N = Val (Failure, [(1, af_bytes); (9, [])])%N /\
  filter_command (fun _ => true) [(1, af_bytes)]%N (mkFilterArgs [[55]] [] None None true 1 1)%N = Val (Success, [(1, [])])%N /\
  diff_command (fun _ => 0%N) [(1, af_bytes)]%N false 1 2 = Panic /\ diff_command (fun _ => 0%N) [(1, af_bytes)]%N false 2 1 = Val None.
Proof.
  assert (D : disk_ok [(1, af_bytes); (2, [8; 7; 192]); (3, [8; 7; 192; 0; 255; 249])]%N).
  { intros p bs H. cbn [aget] in H.
    destruct (p =? 1)%N; [injection H as <-; repeat constructor|]. destruct (p =? 2)%N; [injection H as <-; repeat constructor|].
    destruct (p =? 3)%N; [injection H as <-; repeat constructor|]. discriminate. }
  split; [exact D|]. split.
  { exists af_bytes, [mkWire (mkHeader 0 0 true 7 3 0 1) [1; 2]]%N. split; [reflexivity|]. split; [repeat constructor|]. split.
    { constructor; [|constructor]. vm_compute. discriminate. }
    exists [8; 7; 192; 1; 255; 250]%N. split; [reflexivity|]. split; [repeat constructor|]. split; [cbn; lia|]. vm_compute. reflexivity. }
  split; [|split].
  - intro B. apply (C78_info true _ 2%N true D) in B. vm_compute in B. discriminate.
  - intro B. apply (C78_info true _ 3%N true D) in B. vm_compute in B. discriminate.
  - repeat split; vm_compute; reflexivity.
Qed.
