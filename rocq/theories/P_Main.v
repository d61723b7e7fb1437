(* Properties C56 - C60: the command line as a whole, and the Python file functions *)
From Coq Require Import Floats.SpecFloat Permutation.
From Verif Require Import Base S_Bits M_Reader M_Packet M_Group S_Packet S_Group M_Timecode L_Base L_Float L_Packet L_Group M_Merge S_Merge L_Merge P_Merge
  M_Cli S_Cli P_CliFilter M_Frame M_ReedSolomon M_Pipeline M_Main S_Main.
Open Scope N_scope.

Lemma to_u16s_in : forall a l, a < 65536 -> (In a (to_u16s l) <-> In a l).
Proof. intros a l H. unfold to_u16s. rewrite filter_In, N.ltb_lt. tauto. Qed.
Lemma to_u16s_nil : forall l, to_u16s l = [] <-> forall v, In v l -> 65536 <= v.
Proof.
  induction l as [|x l IH]; cbn [to_u16s filter]; [split; [intros _ v []|reflexivity]|].
  fold (to_u16s l). destruct (N.ltb_spec x 65536).
  - split; [discriminate|]. intro A. specialize (A x (or_introl eq_refl)). lia.
  - rewrite IH. split; [intros A v [<-|I]; [lia|apply A; exact I]|intros A v I; apply A; right; exact I].
Qed.
Lemma wanted_accepted : forall i e a, a < 65536 -> (wanted (to_u16s i) (to_u16s e) a <-> accepted i e a).
Proof. intros i e a H. unfold wanted, accepted. rewrite to_u16s_nil, !to_u16s_in by exact H. tauto. Qed.
Lemma kept_ext : forall A (P Q : A -> Prop) l k, (forall x, In x l -> (P x <-> Q x)) -> kept P l k -> kept Q l k.
Proof.
  intros A P Q l k H K. induction K as [|x l k HP K IH|x l k HP K IH]; [constructor| |].
  - constructor; [apply H; [left; reflexivity|exact HP]|]. apply IH. intros; apply H; right; assumption.
  - constructor; [intro C; apply HP; apply H; [left; reflexivity|exact C]|]. apply IH. intros; apply H; right; assumption.
Qed.
Lemma stands_parse : forall l vs, stands_for l vs -> parse_number_ranges l = Some vs.
Proof. intros l vs H. apply C50_parse_number_ranges. exact H. Qed.
Lemma file_items_ok : forall bs ws, file_holds bs ws -> file_items bs = Val (map Ok (packets_at 0 ws)).
Proof.
  intros bs ws H. destruct H as (HW & HL & tail & -> & HB & HI & HT). unfold file_items.
  apply collect_yields; [apply decode_stream_plain; assumption|].
  rewrite map_length, packets_at_length, app_length. assert (X := wires_length ws HW). lia.
Qed.
Lemma yields_unique : forall S A (next : S -> outcome (option A * S)) s l l', yields next s l -> yields next s l' -> l = l'.
Proof.
  intros S A next s l l' Y. revert l'. induction Y as [s s' E|s s' a items E Y IH]; intros l' Y'; inversion Y' as [? ? E'|? ? ? ? E' Y'']; subst; try congruence.
  rewrite E in E'. injection E' as <- <-. f_equal. apply IH. exact Y''.
Qed.
Lemma file_items_yields : forall bs ws items, file_holds bs ws -> yields pdec_next (pdec_new (reader_of bs)) items -> items = map Ok (packets_at 0 ws).
Proof.
  intros bs ws items (HW & HL & tail & -> & HB & HI & HT) Y. eapply yields_unique; [exact Y|]. apply decode_stream_plain; assumption.
Qed.
Lemma packets_apid : forall ws off p, Forall wire_ok ws -> In p (packets_at off ws) -> apid (p_header p) < 65536.
Proof.
  induction ws as [|w ws IH]; intros off p H I; [destruct I|]. inversion H as [|? ? (HH & _) HF]; subst. destruct I as [<-|I].
  - cbn [p_header]. unfold header_ok in HH. lia.
  - eapply IH; eassumption.
Qed.
Lemma group_apid : forall ws gs g, Forall wire_ok ws -> grouping (packets_at 0 ws) gs -> In g gs -> g_apid g < 65536.
Proof.
  intros ws gs g HW G I. assert (WF := grouping_wf _ _ G). rewrite Forall_forall in WF. destruct (WF g I) as [NE AP].
  destruct (g_packets g) as [|p rest] eqn:EP; [contradiction|]. inversion AP as [|? ? H _]; subst. rewrite <- H. eapply packets_apid; [exact HW|].
  rewrite <- (grouping_concat _ _ G). apply in_concat. exists (g_packets g). split; [apply in_map; exact I|rewrite EP; left; reflexivity].
Qed.
Lemma exists_file_iff : forall fs p, exists_file fs p = false <-> aget p fs = None.
Proof. intros fs p. unfold exists_file. destruct (aget p fs); cbn; split; congruence. Qed.
Lemma clobber_check : forall fs c o, may_write fs c o -> negb c && exists_file fs o = false.
Proof. intros fs c o [->|H]; [reflexivity|]. apply exists_file_iff in H. rewrite H. apply andb_false_r. Qed.
Lemma only_written_aset2 : forall fs p c0 c, only_written fs p c (aset p c (aset p c0 fs)).
Proof.
  intros. split; [apply aget_aset_eq|]. intros q H. rewrite !aget_aset_neq by exact H. reflexivity.
Qed.
Lemma only_written_aset : forall fs p c, only_written fs p c (aset p c fs).
Proof. intros. split; [apply aget_aset_eq|]. intros q H. rewrite !aget_aset_neq by exact H. reflexivity. Qed.

Lemma filter_main_ok : forall items inc exc i e before after out, parse_number_ranges inc = Some i -> parse_number_ranges exc = Some e ->
  filter_cmd items (to_u16s i) (to_u16s e) before after = Val (Some out) -> filter_main (Val items) inc exc before after = Val (Some out).
Proof.
  intros items inc exc i e before after out Hi He E. unfold filter_main. rewrite Hi, He. cbn [obind].
  unfold filter_cmd in *. destruct (is_nil (to_u16s i) && is_nil (to_u16s e) && is_none before && is_none after); [discriminate|exact E].
Qed.

(* ---- C56 ---- *)
(* The whole filter command without time options: the numbers given on the command line, the bytes written *)
Theorem C56_filter_command_apids : forall creatable fs a bs ws include exclude,
  may_write fs (fa_clobber a) (fa_output a) -> creatable (fa_output a) = true -> fa_input a <> fa_output a ->
  aget (fa_input a) fs = Some bs -> file_holds bs ws ->
  stands_for (fa_include a) include -> stands_for (fa_exclude a) exclude ->
  (exists v, In v (include ++ exclude) /\ v < 65536) ->
  fa_before a = None -> fa_after a = None ->
  exists kps fs', kept (fun w => accepted include exclude (apid (w_header w))) ws kps /\
    filter_command creatable fs a = Val (Success, fs') /\ only_written fs (fa_output a) (concat (map wire_bytes kps)) fs'.
Proof.
  intros creatable fs a bs ws i e MW CR NE GI FH SI SE (v & IV & LV) EB EA.
  destruct (C49_filter_apids bs ws (to_u16s i) (to_u16s e) FH) as (items & kps & Y & K & E).
  { apply in_app_or in IV. destruct IV as [IV|IV]; [left|right]; rewrite to_u16s_nil; intro A; specialize (A v IV); lia. }
  apply (file_items_yields bs ws) in Y; [|exact FH]. subst items.
  exists kps, (aset (fa_output a) (concat (map wire_bytes kps)) (aset (fa_output a) [] fs)).
  split; [|split; [|apply only_written_aset2]].
  - eapply kept_ext; [|exact K]. intros w I. apply wanted_accepted. destruct FH as (HW & _). rewrite Forall_forall in HW.
    destruct (HW w I) as (HH & _). unfold header_ok in HH. lia.
  - unfold filter_command. rewrite clobber_check, GI, CR by exact MW. cbn [negb]. rewrite aget_aset_neq, GI by exact NE.
    rewrite (file_items_ok bs ws FH). rewrite EB, EA, (filter_main_ok _ _ _ i e _ _ _ (stands_parse _ _ SI) (stands_parse _ _ SE) E). reflexivity.
Qed.
Print Assumptions C56_filter_command_apids.

(* ... and with time options *)
Theorem C56_filter_command_times : forall creatable fs a bs ws gs include exclude,
  may_write fs (fa_clobber a) (fa_output a) -> creatable (fa_output a) = true -> fa_input a <> fa_output a ->
  aget (fa_input a) fs = Some bs -> file_holds bs ws -> grouping (packets_at 0 ws) gs ->
  stands_for (fa_include a) include -> stands_for (fa_exclude a) exclude ->
  fa_before a <> None \/ fa_after a <> None ->
  exists kps fs', kept (fun g => timely (fa_before a) (fa_after a) g /\ accepted include exclude (g_apid g)) gs kps /\
    filter_command creatable fs a = Val (Success, fs') /\ only_written fs (fa_output a) (concat (map group_bytes kps)) fs'.
Proof.
  intros creatable fs a bs ws gs i e MW CR NE GI FH G SI SE HN.
  destruct (C49_filter_times bs ws gs (to_u16s i) (to_u16s e) (fa_before a) (fa_after a) FH G HN) as (items & kps & Y & K & E).
  apply (file_items_yields bs ws) in Y; [|exact FH]. subst items.
  exists kps, (aset (fa_output a) (concat (map group_bytes kps)) (aset (fa_output a) [] fs)).
  split; [|split; [|apply only_written_aset2]].
  - eapply kept_ext; [|exact K]. intros g I. cbv beta. rewrite wanted_accepted; [reflexivity|]. destruct FH as (HW & _). eapply group_apid; eassumption.
  - unfold filter_command. rewrite clobber_check, GI, CR by exact MW. cbn [negb]. rewrite aget_aset_neq, GI by exact NE.
    rewrite (file_items_ok bs ws FH). rewrite (filter_main_ok _ _ _ i e _ _ _ (stands_parse _ _ SI) (stands_parse _ _ SE) E). reflexivity.
Qed.
Print Assumptions C56_filter_command_times.

(* so asking only for numbers that no packet can have does not select nothing: it is as if no --include were
   given at all *)
Theorem C56_big_include_selects_all_refuted : forall creatable fs a include,
  stands_for (fa_include a) include -> (forall v, In v include -> 65536 <= v) ->
  filter_command creatable fs a =
  filter_command creatable fs (mkFilterArgs [] (fa_exclude a) (fa_before a) (fa_after a) (fa_clobber a) (fa_output a) (fa_input a)).
Proof.
  intros creatable fs a i SI HI. unfold filter_command. cbn [fa_clobber fa_output fa_input fa_include fa_exclude fa_before fa_after].
  unfold filter_main. rewrite (stands_parse _ _ SI). apply to_u16s_nil in HI. cbn [parse_number_ranges to_u16s filter]. rewrite HI. reflexivity.
Qed.
Print Assumptions C56_big_include_selects_all_refuted.

(* ---- C57 ---- *)
(* an output that exists is not touched without --clobber *)
Theorem C57_no_clobber : forall h creatable fs ma fa old,
  (ma_clobber ma = false -> aget (ma_output ma) fs = Some old -> merge_command h creatable fs ma = Val (Failure, fs)) /\
  (fa_clobber fa = false -> aget (fa_output fa) fs = Some old -> filter_command creatable fs fa = Val (Failure, fs)).
Proof.
  intros. split; intros C E; [unfold merge_command|unfold filter_command]; rewrite C; unfold exists_file; rewrite E; reflexivity.
Qed.
Print Assumptions C57_no_clobber.

(* whatever happens, no file but the output changes *)
Theorem C57_only_the_output : forall h creatable fs ma fa x fs' q,
  (merge_command h creatable fs ma = Val (x, fs') -> q <> ma_output ma -> aget q fs' = aget q fs) /\
  (filter_command creatable fs fa = Val (x, fs') -> q <> fa_output fa -> aget q fs' = aget q fs).
Proof.
  intros. split.
  - unfold merge_command. destruct (negb _ && _); [intro E; injection E as <- <-; reflexivity|].
    destruct (match ma_apid_order_name ma with Some n => apid_order n | None => _ end) as [order|]; [|intro E; injection E as <- <-; reflexivity].
    destruct (negb (creatable _)); [intro E; injection E as <- <-; reflexivity|].
    destruct (is_nil (ma_inputs ma)); [intros E N; injection E as <- <-; apply aget_aset_neq; exact N|].
    destruct (merge _ _ _) as [r|]; [|discriminate]. cbn [obind]. destruct (merge_written _ _ _) as [w|]; [|discriminate]. cbn [obind].
    intros E N. injection E as <- <-. rewrite !aget_aset_neq by exact N. reflexivity.
  - unfold filter_command. destruct (negb _ && _); [intro E; injection E as <- <-; reflexivity|].
    destruct (aget (fa_input fa) fs); [|intro E; injection E as <- <-; reflexivity].
    destruct (negb (creatable _)); [intro E; injection E as <- <-; reflexivity|].
    destruct (filter_main _ _ _ _ _) as [[out|]|]; cbn [obind]; [| |discriminate]; intros E N; injection E as <- <-; rewrite !aget_aset_neq by exact N; reflexivity.
Qed.
Print Assumptions C57_only_the_output.

Lemma written_ok : forall readers l out, write_groups readers l = Val (Ok out) -> groups_written readers l = out.
Proof.
  intros readers. induction l as [|p l IH]; intros out E; cbn [write_groups groups_written] in *; [congruence|].
  destruct (aget (pt_path p) readers) as [bs|]; [|discriminate]. destruct (_ <? _)%nat; [discriminate|].
  destruct (write_groups readers l) as [[o|]|]; cbn [rbind] in E; try discriminate. injection E as <-. rewrite (IH o); reflexivity.
Qed.
Lemma merge_written_ok : forall h fs m out, merge h fs m = Val (Ok out) -> merge_written h fs m = Val out.
Proof.
  intros h fs m out E. unfold merge, merge_written in *. destruct (open_readers _ _ _); [|discriminate].
  destruct (build_index _ _ _) as [ix|]; [|discriminate]. cbn [obind] in *. rewrite (written_ok _ _ _ E). reflexivity.
Qed.
Lemma asks_order_eq : forall a order, asks_order a order ->
  match ma_apid_order_name a with Some n => apid_order n | None => Some (match ma_apid_order a with Some o => o | None => [] end) end = Some order.
Proof.
  intros a order. unfold asks_order. destruct (ma_apid_order_name a) as [n|].
  - intros [-> ->]. unfold apid_order. destruct (list_eq_dec _ _ _) as [_|C]; [reflexivity|]. destruct (C eq_refl).
  - destruct (ma_apid_order a); intros ->; reflexivity.
Qed.

(* The merge command: the output holds what C18 and C19 say of the Merger with these options. The order is
   given by name, or else by list; no --apids, --from, --to: all. If the output is one of the inputs it is
   empty by the time it is read. *)
Theorem C57_merge_command : forall h creatable fs a order ws, hash_ok h ->
  may_write fs (ma_clobber a) (ma_output a) -> creatable (ma_output a) = true -> ma_inputs a <> [] -> asks_order a order ->
  (forall p, In p (ma_inputs a) -> p = ma_output a /\ ws p = [] \/ p <> ma_output a /\ exists bs, aget p fs = Some bs /\ file_holds bs (ws p)) ->
  let m := with_apid_order
    (mkMerger (ma_inputs a) cds_time [] (option_map to_micros (ma_from a)) (option_map to_micros (ma_to a)) (Some (ma_apids a))) order in
  exists sel fs', merge_command h creatable fs a = Val (Success, fs') /\
    only_written fs (ma_output a) (concat (map group_bytes sel)) fs' /\ selection m ws sel /\
    forall x y tx ty ax ay sx sy ox oy, before sel x y ->
      gkey m x = Some (tx, ax, sx) -> gkey m y = Some (ty, ay, sy) ->
      order_value order ax ox -> order_value order ay oy -> (tx < ty \/ tx = ty /\ ox <= oy)%Z.
Proof.
  intros h creatable fs a order ws HH MW CR NI AO HR m.
  set (fs1 := aset (ma_output a) [] fs).
  assert (M : merger_of_args a order = m).
  { unfold m, merger_of_args, merger_new, with_apids, with_apid_order. destruct (ma_from a), (ma_to a); reflexivity. }
  assert (R : readable (fun p => aget p fs1) m ws).
  { intros p I. cbn [mg_paths m with_apid_order] in I. destruct (HR p I) as [[-> E]|(N & bs & E & F)]; unfold fs1.
    - exists []. rewrite aget_aset_eq, E. split; [reflexivity|]. split; [constructor|]. split; [constructor|]. exists []. split; [reflexivity|].
      split; [constructor|]. split; [apply incomplete_nil|cbn; lia].
    - exists bs. rewrite aget_aset_neq by exact N. auto. }
  destruct (C19_merge_sorted h (fun p => aget p fs1) (mkMerger (ma_inputs a) cds_time [] (option_map to_micros (ma_from a)) (option_map to_micros (ma_to a)) (Some (ma_apids a))) order ws eq_refl HH R)
    as (sel & E & SL & BO). fold m in E, SL, BO.
  exists sel, (aset (ma_output a) (concat (map group_bytes sel)) fs1).
  split; [|split; [apply only_written_aset2|split; [exact SL|exact BO]]].
  unfold merge_command. rewrite clobber_check by exact MW. rewrite (asks_order_eq a order AO), CR. cbn [negb].
  destruct (ma_inputs a) as [|i0 is] eqn:EI; [contradiction|]. cbn [is_nil]. fold fs1. rewrite M.
  rewrite E. cbn [obind]. rewrite (merge_written_ok _ _ _ _ E). reflexivity.
Qed.
Print Assumptions C57_merge_command.

(* --clobber and a merge that cannot be done: the old contents are lost. An input is missing, or there is
   none. *)
Theorem C57_merge_failure_loses_output_refuted : forall h creatable fs a order,
  may_write fs (ma_clobber a) (ma_output a) -> creatable (ma_output a) = true -> asks_order a order ->
  ma_inputs a = [] \/ (exists p, In p (ma_inputs a) /\ p <> ma_output a /\ aget p fs = None) ->
  exists fs', merge_command h creatable fs a = Val (Failure, fs') /\ only_written fs (ma_output a) [] fs'.
Proof.
  intros h creatable fs a order MW CR AO HI. unfold merge_command. rewrite clobber_check by exact MW.
  rewrite (asks_order_eq a order AO), CR. cbn [negb].
  destruct (is_nil (ma_inputs a)) eqn:EN.
  - eexists. split; [reflexivity|]. apply only_written_aset.
  - destruct HI as [E|(p & I & N & E)]; [rewrite E in EN; discriminate|].
    set (fs1 := aset (ma_output a) [] fs). set (m := merger_of_args a order).
    assert (X : exists p, In p (mg_paths m) /\ (fun p => aget p fs1) p = None).
    { exists p. split.
      - unfold m, merger_of_args, with_apids, with_from, with_to, with_apid_order, merger_new. destruct (ma_from a), (ma_to a); exact I.
      - unfold fs1. cbn beta. rewrite aget_aset_neq by exact N. exact E. }
    destruct (C18_unreadable h _ m X) as [k MK]. rewrite MK. cbn [obind]. unfold merge_written.
    destruct (open_readers_err _ _ [] X) as [k' OE]. rewrite OE. cbn [obind]. eexists. split; [reflexivity|]. apply only_written_aset2.
Qed.
Print Assumptions C57_merge_failure_loses_output_refuted.

(* likewise for the filter: arguments that are not numbers, or no filter at all *)
Theorem C57_filter_failure_loses_output_refuted : forall creatable fs a bs,
  may_write fs (fa_clobber a) (fa_output a) -> creatable (fa_output a) = true ->
  aget (fa_input a) fs = Some bs ->
  (~ exists vs, stands_for (fa_include a) vs) \/ (~ exists vs, stands_for (fa_exclude a) vs) \/
  (fa_include a = [] /\ fa_exclude a = [] /\ fa_before a = None /\ fa_after a = None) ->
  exists fs', filter_command creatable fs a = Val (Failure, fs') /\ only_written fs (fa_output a) [] fs'.
Proof.
  intros creatable fs a bs MW CR GI HB. exists (aset (fa_output a) [] fs). split; [|apply only_written_aset].
  unfold filter_command. rewrite clobber_check, GI, CR by exact MW. cbn [negb].
  assert (NP : forall l, (~ exists vs, stands_for l vs) -> parse_number_ranges l = None).
  { intros l H. destruct (parse_number_ranges l) as [vs|] eqn:E; [|reflexivity]. apply C50_parse_number_ranges in E. destruct H. exists vs. exact E. }
  assert (X : forall items, filter_main items (fa_include a) (fa_exclude a) (fa_before a) (fa_after a) = Val None).
  { intro items. unfold filter_main. destruct HB as [H|[H|(E1 & E2 & E3 & E4)]].
    - rewrite (NP _ H). reflexivity.
    - rewrite (NP _ H). destruct (parse_number_ranges (fa_include a)); reflexivity.
    - rewrite E1, E2, E3, E4. reflexivity. }
  rewrite X. reflexivity.
Qed.
Print Assumptions C57_filter_failure_loses_output_refuted.

(* filtering a file onto itself destroys it *)
Theorem C57_filter_onto_itself_refuted : forall creatable fs a bs include exclude,
  fa_clobber a = true -> creatable (fa_output a) = true -> fa_input a = fa_output a -> aget (fa_input a) fs = Some bs ->
  stands_for (fa_include a) include -> stands_for (fa_exclude a) exclude ->
  (exists v, In v (include ++ exclude) /\ v < 65536) \/ fa_before a <> None \/ fa_after a <> None ->
  exists fs', filter_command creatable fs a = Val (Success, fs') /\ only_written fs (fa_output a) [] fs'.
Proof.
  intros creatable fs a bs i e CL CR EQ GI SI SE HN.
  exists (aset (fa_output a) [] (aset (fa_output a) [] fs)). split; [|apply only_written_aset2].
  unfold filter_command. rewrite CL, GI, CR. cbn [negb andb]. rewrite EQ, aget_aset_eq.
  change (file_items []) with (@Val (list (result packet)) []). cbn [obind].
  unfold filter_main. rewrite (stands_parse _ _ SI), (stands_parse _ _ SE).
  unfold filter_cmd. cbn [obind].
  assert (X : is_nil (to_u16s i) && is_nil (to_u16s e) && is_none (fa_before a) && is_none (fa_after a) = false).
  { destruct HN as [(v & IV & LV)|HN].
    - apply in_app_or in IV. destruct (is_nil (to_u16s i) && is_nil (to_u16s e)) eqn:E; [|reflexivity]. exfalso.
      apply andb_true_iff in E. rewrite !is_nil_iff, !to_u16s_nil in E. destruct E as [A B], IV as [IV|IV]; [specialize (A v IV)|specialize (B v IV)]; lia.
    - destruct (fa_before a), (fa_after a); cbn [is_none]; rewrite ?andb_false_r; try reflexivity. destruct HN; congruence. }
  rewrite X. destruct (negb _ || negb _); reflexivity.
Qed.
Print Assumptions C57_filter_onto_itself_refuted.

(* merging files onto one of them: that one's packets are gone *)
Theorem C57_merge_onto_input_refuted : forall h creatable fs a order bs, hash_ok h ->
  ma_clobber a = true -> creatable (ma_output a) = true -> asks_order a order ->
  ma_inputs a = [ma_output a] -> aget (ma_output a) fs = Some bs ->
  exists fs', merge_command h creatable fs a = Val (Success, fs') /\ only_written fs (ma_output a) [] fs'.
Proof.
  intros h creatable fs a order bs HH CL CR AO EI G.
  destruct (C57_merge_command h creatable fs a order (fun _ => []) HH (or_introl CL) CR) as (sel & fs' & E & W & (SL & _) & _).
  - rewrite EI. discriminate.
  - exact AO.
  - intros p I. rewrite EI in I. destruct I as [<-|[]]. left. auto.
  - exists fs'. split; [exact E|]. replace sel with (@nil pgroup) in W; [exact W|]. destruct sel as [|g sel]; [reflexivity|]. exfalso.
    inversion SL as [|? ? (p & gs & f & rest & t & _ & G' & I & _) _]; subst. cbn [packets_at] in G'. inversion G' as [|? ? ? ? ? X|? ? ? ? ? ? ? ? X]; subst. destruct I.
Qed.
Print Assumptions C57_merge_onto_input_refuted.

(* ---- examples for C56 and C57 ---- *)
Definition mx_fs : fsys := [(1, wire_bytes (fl_wire 7 1) ++ wire_bytes (fl_wire 8 2)); (2, [1; 2; 3])].
Definition in_order_h : hash_order := mkHashOrder (fun l => l) (fun l => l).
(* --include 8: one packet; --include 65536 --exclude 9: all of them; onto itself: nothing *)
Example C56_ex : 
  filter_command (fun _ => true) mx_fs (mkFilterArgs [[56]] [] None None false 3 1) =
    Val (Success, mx_fs ++ [(3, wire_bytes (fl_wire 8 2))]) /\
  filter_command (fun _ => true) mx_fs (mkFilterArgs [[54; 53; 53; 51; 54]] [[57]] None None true 2 1) =
    Val (Success, [(1, wire_bytes (fl_wire 7 1) ++ wire_bytes (fl_wire 8 2)); (2, wire_bytes (fl_wire 7 1) ++ wire_bytes (fl_wire 8 2))]) /\
  filter_command (fun _ => true) mx_fs (mkFilterArgs [[56]] [] None None true 1 1) = Val (Success, [(1, []); (2, [1; 2; 3])]) /\
  filter_command (fun _ => true) mx_fs (mkFilterArgs [[120]] [] None None true 2 1) = Val (Failure, [(1, wire_bytes (fl_wire 7 1) ++ wire_bytes (fl_wire 8 2)); (2, [])]) /\
  filter_command (fun _ => true) mx_fs (mkFilterArgs [[56]] [] None None false 2 1) = Val (Failure, mx_fs).
Proof. vm_compute. repeat split. Qed.
Example C57_ex :
  merge_command in_order_h (fun _ => true) mx_fs (mkMergeArgs None None None None [] false 3 [1]) =
    Val (Success, mx_fs ++ [(3, wire_bytes (fl_wire 7 1) ++ wire_bytes (fl_wire 8 2))]) /\
  merge_command in_order_h (fun _ => true) mx_fs (mkMergeArgs None None None None [8] true 2 [1]) =
    Val (Success, [(1, wire_bytes (fl_wire 7 1) ++ wire_bytes (fl_wire 8 2)); (2, wire_bytes (fl_wire 8 2))]) /\
  merge_command in_order_h (fun _ => true) mx_fs (mkMergeArgs None None None None [8] true 2 [1; 9]) =
    Val (Failure, [(1, wire_bytes (fl_wire 7 1) ++ wire_bytes (fl_wire 8 2)); (2, [])]) /\
  file_holds (wire_bytes (fl_wire 7 1) ++ wire_bytes (fl_wire 8 2)) [fl_wire 7 1; fl_wire 8 2] /\ hash_ok in_order_h.
Proof.
  split; [vm_compute; reflexivity|]. split; [vm_compute; reflexivity|]. split; [vm_compute; reflexivity|].
  split; [|split; intro; apply Permutation_refl].
  split; [repeat constructor; vm_compute; intuition (try discriminate; try lia); repeat constructor|].
  split; [repeat constructor; vm_compute; discriminate|]. exists []. split; [reflexivity|]. split; [constructor|]. split; [apply incomplete_nil|cbn; lia].
Qed.
