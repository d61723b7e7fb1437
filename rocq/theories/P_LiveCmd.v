(* C79: the programs on inputs that fail, or panic the decoder, while they are read *)
From Coq Require Import Permutation.
From Verif Require Import Base S_Bits S_Packet M_Reader M_Packet M_Group S_Group M_Timecode L_Base L_Reader L_Packet L_Group M_Merge S_Merge L_Merge
  M_Cli S_Cli M_Main S_Main S_Write M_Live S_Live L_Live S_AnyFile P_CliFrame P_CliFilter P_CliInfo P_CliDiff P_Main P_AnyFile P_Live.
Open Scope nat_scope.

(* ---- what is read ---- *)
Definition sane (p : packet) : Prop := header_ok (p_header p) /\ 6 <= length (p_data p).
Lemma reads_sane : forall s items h, pd_ok s -> reads pdec_next s items h -> Forall sane (keep_ok items).
Proof.
  intros s items h OK R. induction R as [s s' E|s E|s F|s s' a items h E R IH]; try constructor.
  assert (OK' := pd_ok_step _ _ _ OK E). destruct a as [p|e]; cbn [keep_ok]; [|apply IH; exact OK'].
  constructor; [|apply IH; exact OK']. assert (J := pdec_next_inv s OK). rewrite E in J. destruct J as (_ & L & H & _). split; [rewrite H; apply spec_header_ok|].
  assert (W := wire_len_ge (p_data p)). lia.
Qed.
Lemma of_bytes_ok : forall r, of_bytes r -> pd_ok (pdec_new r).
Proof. intros r H. exact H. Qed.
Lemma mono_packets : mono packets_live.
Proof. apply mono_filter_mapped, mono_direct. Qed.
Lemma mono_groups : mono groups_live.
Proof. apply mono_ga, mono_packets. Qed.
Lemma pulls_packets : forall r items h, reads pdec_next (pdec_new r) items h -> pulls packets_live (pdec_new r) (keep_ok items) h.
Proof. intros r items h R. apply pulls_ok_only. exact R. Qed.
Lemma delivered_unique : forall all gs gs', delivered all gs -> delivered all gs' -> gs = gs'.
Proof.
  intros all gs gs' [[-> A]|(g & -> & A)] [[E B]|(g' & E & B)].
  - exact E.
  - subst gs. destruct B. eapply A. reflexivity.
  - subst gs'. destruct A. eapply B. reflexivity.
  - apply app_inj_tail in E. apply E.
Qed.
Lemma grouping_unique : forall ps gs gs', grouping ps gs -> grouping ps gs' -> gs = gs'.
Proof. intros ps gs gs' A B. apply groups_exact in A, B. eapply yields_unique; eassumption. Qed.
Lemma closed_unique : forall ps gs gs', closed_groups ps gs -> closed_groups ps gs' -> gs = gs'.
Proof.
  intros ps gs gs' (all & A & DA) (all' & B & DB). rewrite (grouping_unique _ _ _ B A) in DB. eapply delivered_unique; [exact DA|exact DB].
Qed.
Theorem C79_closed_groups : forall ps, exists gs, closed_groups ps gs /\ forall gs', closed_groups ps gs' -> gs' = gs.
Proof.
  intro ps. assert (X : exists gs, closed_groups ps gs).
  { destruct (grouping_total ps) as [all G]. assert (W := grouping_wf _ _ G). destruct all as [|x l] using rev_ind.
    - exists []. exists []. split; [exact G|]. left. split; [reflexivity|]. intros [|] ? C; discriminate.
    - clear IHl. apply Forall_app in W. destruct W as [_ W]. apply Forall_inv in W. destruct W as [W _].
      assert (D : closed x \/ ~ closed x).
      { destruct (g_packets x) as [|p [|q r]] eqn:E; [contradiction| |].
        - destruct (N.eq_dec (sequence_flags (p_header p)) 3) as [Y|Y]; [left; exists p; auto|right]. intros (p' & E' & Y'). rewrite E in E'. injection E' as <-. contradiction.
        - right. intros (p' & E' & Y'). rewrite E in E'. discriminate. }
      destruct D as [D|D].
      + exists (l ++ [x]), (l ++ [x]). split; [exact G|]. left. split; [reflexivity|]. intros init g E. apply app_inj_tail in E. destruct E as [_ <-]. exact D.
      + exists l, (l ++ [x]). split; [exact G|]. right. eauto. }
  destruct X as [gs X]. exists gs. split; [exact X|]. intros gs' Y. eapply closed_unique; eassumption.
Qed.
Print Assumptions C79_closed_groups.

(* ---- C79: Python's two iterators, which the other functions use ---- *)
Lemma hands_pulls : forall S A (next : pullable S A) s l s', hands next s l s' -> forall l' h, pulls next s' l' h -> pulls next s (l ++ l') h.
Proof. intros S A next s l s' H. induction H as [s|n s s1 s' a l E H IH]; intros l' h P; [exact P|]. cbn [app]. eapply pulls_item; [exact E|apply IH; exact P]. Qed.
Lemma pulls_groups : forall s gs st, group_reads s gs st ->
  exists h, pulls groups_live (mkGather s None false) gs h /\ status_of h = st /\
    forall s', h = EndsIn s' -> forall n, groups_live n s' = Some (Val (None, s')).
Proof.
  intros s gs st R. induction R as [s items s' gs R G O|s items s' gs gs' st R G O R' IH|s items gs R C|s items gs R C].
  - assert (P := pulls_ok_only _ _ _ _ _ _ R). assert (GP := gather_pulls _ mono_packets _ _ G _ None _ _ P eq_refl). destruct GP as [_ GP]. eexists. split; [apply GP; exact O|]. split; [reflexivity|].
    intros s2 E n. injection E as <-. reflexivity.
  - assert (P := pulls_ok_only _ _ _ _ _ _ R). assert (GP := gather_pulls _ mono_packets _ _ G _ None _ _ P eq_refl). destruct GP as [GP _]. destruct IH as (h & P' & ES & EN). exists h. split; [|auto].
    eapply hands_pulls; [apply GP; exact O|exact P'].
  - assert (P := pulls_ok_only _ _ _ _ _ _ R). destruct (grouping_total (keep_ok items)) as [all G]. assert (GP := gather_pulls _ mono_packets _ _ G _ None _ _ P eq_refl). destruct GP as (gs' & D & P').
    exists Breaks. split; [|split; [reflexivity|discriminate]]. replace gs with gs'; [exact P'|]. eapply closed_unique; [|exact C]. exists all. split; [exact G|exact D].
  - assert (P := pulls_ok_only _ _ _ _ _ _ R). destruct (grouping_total (keep_ok items)) as [all G]. assert (GP := gather_pulls _ mono_packets _ _ G _ None _ _ P eq_refl). destruct GP as (gs' & D & P').
    exists Forever. split; [|split; [reflexivity|discriminate]]. replace gs with gs'; [exact P'|]. eapply closed_unique; [|exact C]. exists all. split; [exact G|exact D].
Qed.
Theorem C79_iterators : forall r items h gs st, reads pdec_next (pdec_new r) items h -> group_reads (pdec_new r) gs st ->
  pulls packets_live (pdec_new r) (keep_ok items) h /\
  exists h', pulls groups_live (groups_new r) gs h' /\ status_of h' = st /\
    forall s', h' = EndsIn s' -> forall n, groups_live n s' = Some (Val (None, s')).
Proof. intros r items h gs st R G. split; [apply pulls_packets; exact R|apply pulls_groups; exact G]. Qed.
Print Assumptions C79_iterators.

(* every input reads in groups, in one way *)
Lemma reads_shrinks : forall s items s', pd_ok s -> reads pdec_next s items (EndsIn s') -> pd_ok s' /\
  length (transcript (evs (pd_reader s'))) + length items <= length (transcript (evs (pd_reader s))).
Proof.
  intros s items s' OK R. remember (EndsIn s') as h eqn:EH. induction R as [s s1 E|s E|s F|s s1 a items h E R IH]; try discriminate.
  - injection EH as ->. split; [eapply pd_ok_step; eassumption|]. assert (I := pdec_next_inv s OK). rewrite E in I. destruct I as (g & _ & [I|[I|(I1 & I2 & _)]]).
    + rewrite I, app_length. cbn [length]. lia.
    + rewrite I, app_length. cbn [length]. lia.
    + rewrite I2. cbn [length]. lia.
  - assert (OK' := pd_ok_step _ _ _ OK E). destruct (IH OK' EH) as [O L]. split; [exact O|]. destruct (pdec_step_len s a s1 OK E) as [FE [X|[T [c F]]]]; [cbn [length]; lia|].
    exfalso. subst h. assert (FF := fails_tok s c OK T F). destruct (fails_no _ _ _ _ FF (a :: items) (EndsIn s')) as [C _]; [eapply reads_item; eassumption|discriminate].
Qed.
Lemma grouping_open_items : forall items gs, grouping (keep_ok items) gs -> ends_open gs -> 1 <= length items.
Proof.
  intros [|x items] gs G (init & g & -> & _); [|cbn [length]; lia]. cbn [keep_ok] in G. exfalso. inversion G as [E| |]. destruct init; discriminate.
Qed.
Lemma group_reads_total : forall n s, length (transcript (evs (pd_reader s))) <= n -> pd_ok s -> exists gs st, group_reads s gs st.
Proof.
  induction n as [|n IH]; intros s L OK; destruct (C79_every_reader s OK) as (items & h & R); (destruct h as [s'| |]; [|destruct (C79_closed_groups (keep_ok items)) as (gs & C & _); eexists _, _; eapply gr_panic; eassumption|destruct (C79_closed_groups (keep_ok items)) as (gs & C & _); eexists _, _; eapply gr_fail; eassumption]);
  destruct (grouping_total (keep_ok items)) as [gs G]; destruct (ends_open_dec gs) as [O|O]; try (eapply Forall_impl; [|eapply grouping_wf; exact G]; intros g [X _]; exact X); try (eexists _, _; eapply gr_end; eassumption);
  assert (LI := grouping_open_items _ _ G O); destruct (reads_shrinks _ _ _ OK R) as [OK' LE]; [lia|].
  destruct (IH s' ltac:(lia) OK') as (gs' & st & R'). eexists _, _. eapply gr_on; eassumption.
Qed.
Theorem C79_every_group_reader : forall r, of_bytes r ->
  exists gs st, group_reads (pdec_new r) gs st /\ forall gs' st', group_reads (pdec_new r) gs' st' -> gs' = gs /\ st' = st.
Proof.
  intros r OK. destruct (group_reads_total _ (pdec_new r) (le_n _) OK) as (gs & st & R). exists gs, st. split; [exact R|]. clear OK.
  revert R. generalize (pdec_new r). intros s R. induction R as [s items s' gs R G O|s items s' gs gs2 st R G O R2 IH|s items gs R C|s items gs R C]; intros gs' st' R';
  destruct R' as [s items1 s1 gs1 R1 G1 O1|s items1 s1 gs1 gs3 st1 R1 G1 O1 R3|s items1 gs1 R1 C1|s items1 gs1 R1 C1];
  destruct (C79_one_way _ _ _ _ _ R R1) as (EH & EI & _); try discriminate; try (rewrite EI in *; clear EI).
  - split; [|reflexivity]. eapply grouping_unique; eassumption.
  - rewrite (grouping_unique _ _ _ G1 G) in O1. contradiction.
  - rewrite (grouping_unique _ _ _ G1 G) in O1. contradiction.
  - injection EH as <-. destruct (IH _ _ R3) as [-> ->]. rewrite (grouping_unique _ _ _ G1 G). auto.
  - split; [|reflexivity]. eapply closed_unique; eassumption.
  - split; [|reflexivity]. eapply closed_unique; eassumption.
Qed.
Print Assumptions C79_every_group_reader.
(* ordinary files, files that panic the decoder, and devices that fail *)
Theorem C79_group_inputs : forall bs ws gs,
  (file_holds bs ws -> grouping (packets_at 0 ws) gs -> group_reads (pdec_new (reader_of bs)) gs Returned) /\
  (too_big bs ws -> closed_groups (packets_at 0 ws) gs -> group_reads (pdec_new (reader_of bs)) gs Panicking) /\
  (forall r c, file_holds bs ws -> transcript (evs r) = map TByte bs -> fin r = Failing c -> closed_groups (packets_at 0 ws) gs -> group_reads (pdec_new r) gs Running).
Proof.
  intros bs ws gs. split; [|split].
  - intros H G. destruct (proj1 (C79_inputs bs ws) H) as (s' & R & s2 & E). rewrite <- (keep_ok_map _ (packets_at 0 ws)) in G.
    destruct (ends_open_dec gs) as [O|O].
    + eapply Forall_impl; [|eapply grouping_wf; exact G]. intros g [X _]. exact X.
    + rewrite <- (app_nil_r gs). eapply gr_on; [exact R|exact G|exact O|]. eapply gr_end with (items := []); [apply reads_end; exact E|constructor|apply ends_open_nil].
    + eapply gr_end; eassumption.
  - intros H C. rewrite <- (keep_ok_map _ (packets_at 0 ws)) in C. eapply gr_panic; [|exact C]. apply C79_inputs. exact H.
  - intros r c H T F C. rewrite <- (keep_ok_map _ (packets_at 0 ws)) in C. eapply gr_fail; [|exact C]. eapply (proj2 (proj2 (C79_inputs bs ws))); eassumption.
Qed.
Print Assumptions C79_group_inputs.

(* ---- info ---- *)
Lemma info_fold : forall ovf time_of ps s, fold_ok (info_step ovf time_of) s ps = info_steps ovf time_of s ps.
Proof. induction ps as [|p ps IH]; intro s; [reflexivity|]. cbn [fold_ok info_steps]. destruct (info_step ovf time_of s p); [apply IH|reflexivity]. Qed.
Lemma result_of_eventually : forall A B S (f : A -> outcome B) (g : nat -> A * status) a (h : reading S), eventually g (a, status_of h) ->
  eventually (fun n => result_of f (g n)) (match h with EndsIn _ => Some (f a) | Breaks => Some Panic | Forever => None end).
Proof. intros A B S f g a h [n0 H]. exists n0. intros n L. rewrite H by exact L. destruct h; reflexivity. Qed.
Lemma result_running : forall A B (f : A -> outcome B) x, snd x = Running -> result_of f x = None.
Proof. intros A B f [a st] E. cbn [snd] in E. subst st. reflexivity. Qed.
Lemma result_more : forall S A B C (next : pullable S A) (body : B -> A -> outcome B) (f : B -> outcome C), mono next -> forall n m s b x, n <= m ->
  result_of f (for_each next body n s b) = Some x -> result_of f (for_each next body m s b) = Some x.
Proof.
  intros S A B C next body f M n m s b x L E. destruct (for_each_more _ _ _ next body M n m s b L) as [H _].
  destruct (for_each next body n s b) as [b1 st]. cbn [snd] in H. destruct st; cbn [result_of] in E; try discriminate; rewrite H by discriminate; exact E.
Qed.
Theorem C79_info : forall ovf time_of r items h, of_bytes r -> reads pdec_next (pdec_new r) items h ->
  match h with
  | EndsIn _ => exists res, summarize ovf time_of items = Val res /\ eventually (info_live ovf time_of r) (Some (Val res))
  | Breaks => eventually (info_live ovf time_of r) (Some Panic)
  | Forever => forall n, info_live ovf time_of r n = None
  end.
Proof.
  intros ovf time_of r items h OK R. assert (P := pulls_packets _ _ _ R). assert (SN := reads_sane _ _ _ (of_bytes_ok _ OK) R).
  assert (SQ : Forall seq_ok (keep_ok items)).
  { eapply Forall_impl; [|exact SN]. intros p [(_ & _ & _ & _ & H & _) _]. exact H. }
  destruct (C52_info ovf time_of items SQ) as (all & rows & E & _).
  unfold summarize in E. destruct (info_steps ovf time_of _ (keep_ok items)) as [st|] eqn:ES; cbn [obind] in E; [|discriminate].
  rewrite <- info_fold in ES. assert (EV := for_each_pulls _ _ _ _ _ mono_packets _ _ _ P _ _ ES).
  apply (result_of_eventually _ _ _ (fun s => Val (is_all s, apid_sort (is_apids s)))) in EV. destruct h as [s'| |].
  - exists (all, rows). split; [unfold summarize; rewrite <- info_fold, ES; exact E|]. rewrite <- E. exact EV.
  - exact EV.
  - intro n. apply result_running. eapply for_each_hangs; [apply mono_packets|exact P|exact ES].
Qed.
Print Assumptions C79_info.

(* ---- filter ---- *)
Lemma filter_fold : forall i e b a ps out, fold_ok (filter_body i e b a) out ps = Val (out ++ concat (map fp_data (filter (filter_keep i e b a) ps))).
Proof.
  induction ps as [|p ps IH]; intro out; cbn [fold_ok filter]; [cbn; rewrite app_nil_r; reflexivity|]. unfold filter_body at 1. cbn [obind]. rewrite IH.
  destruct (filter_keep i e b a p); [|reflexivity]. cbn [map concat]. rewrite app_assoc. reflexivity.
Qed.
Lemma while_ok_before : forall items ps, before_error items ps -> map_while_ok items = ps.
Proof.
  assert (K : forall ps l, map_while_ok (map Ok ps ++ l) = (ps ++ map_while_ok l : list packet)) by (induction ps; intro; cbn; congruence).
  intros items ps [->|(e & rest & ->)]; [rewrite <- (app_nil_r (map Ok ps)), K; apply app_nil_r|]. rewrite K. apply app_nil_r.
Qed.
Lemma while_ok_subset : forall (items : list (result packet)) p, In p (map_while_ok items) -> In p (keep_ok items).
Proof. induction items as [|[q|e] items IH]; intros p I; [destruct I| |destruct I]. destruct I as [<-|I]; [left; reflexivity|right; apply IH; exact I]. Qed.
Definition went (st : status) : progress := match st with Returned => Exited Success | Panicking => Aborted | Running => Going end.
(* the arguments are good: the command is at the loop *)
Lemma command_live : forall creatable oe r a i e, fa_clobber a = true \/ oe = false -> creatable (fa_output a) = true ->
  stands_for (fa_include a) i -> stands_for (fa_exclude a) e ->
  (exists v, In v (i ++ e) /\ (v < 65536)%N) \/ fa_before a <> None \/ fa_after a <> None ->
  forall n, filter_command_live creatable oe (Some r) a n =
    let '(out, st) := filter_live (to_u16s i) (to_u16s e) (fa_before a) (fa_after a) r n in (went st, Some out).
Proof.
  intros creatable oe r a i e CL CR SI SE HF n. unfold filter_command_live.
  replace (negb (fa_clobber a) && oe) with false by (destruct CL as [->| ->]; [reflexivity|rewrite andb_false_r; reflexivity]).
  rewrite CR, (stands_parse _ _ SI), (stands_parse _ _ SE). cbn [negb].
  replace (is_nil (to_u16s i) && is_nil (to_u16s e) && is_none (fa_before a) && is_none (fa_after a)) with false.
  - destruct (filter_live _ _ _ _ r n) as [out [ | | ]]; reflexivity.
  - symmetry. apply not_true_iff_false. rewrite !andb_true_iff, !is_nil_iff, !to_u16s_nil. intros [[[A B] C] D].
    destruct HF as [(v & I & L)|[HF|HF]].
    + apply in_app_or in I. destruct I as [I|I]; [apply A in I|apply B in I]; lia.
    + destruct (fa_before a); [discriminate|congruence].
    + destruct (fa_after a); [discriminate|congruence].
Qed.
Lemma eventually_map : forall X Y (f : X -> Y) (g : nat -> X) x, eventually g x -> eventually (fun n => f (g n)) (f x).
Proof. intros X Y f g x [n0 H]. exists n0. intros n L. rewrite H by exact L. reflexivity. Qed.
Lemma eventually_ext : forall X (f g : nat -> X) x, (forall n, f n = g n) -> eventually g x -> eventually f x.
Proof. intros X f g x E [n0 H]. exists n0. intros n L. rewrite E. apply H. exact L. Qed.

(* by apids only: the packets before the first read error, even if all reads fail; it only panics if there was none before *)
Theorem C79_filter_apids : forall creatable output_exists r a items h ps kps include exclude, of_bytes r ->
  fa_clobber a = true \/ output_exists = false -> creatable (fa_output a) = true ->
  stands_for (fa_include a) include -> stands_for (fa_exclude a) exclude ->
  (exists v, In v (include ++ exclude) /\ (v < 65536)%N) -> fa_before a = None -> fa_after a = None ->
  reads pdec_next (pdec_new r) items h -> before_error items ps ->
  kept (fun p => accepted include exclude (apid (p_header p))) ps kps ->
  (h = Breaks /\ items = map Ok ps /\
   eventually (filter_command_live creatable output_exists (Some r) a) (Aborted, Some (concat (map p_data kps)))) \/
  (~ (h = Breaks /\ items = map Ok ps) /\
   eventually (filter_command_live creatable output_exists (Some r) a) (Exited Success, Some (concat (map p_data kps)))).
Proof.
  intros creatable oe r a items h ps kps i e OK CL CR SI SE HF EB EA R BE K.
  assert (SN := reads_sane _ _ _ (of_bytes_ok _ OK) R). destruct (pulls_while_ok _ _ _ _ _ _ R) as (h' & P & NF & BR). rewrite (while_ok_before _ _ BE) in P.
  assert (SP : forall p, In p ps -> sane p).
  { intros p I. rewrite Forall_forall in SN. apply SN. apply while_ok_subset. rewrite (while_ok_before _ _ BE). exact I. }
  apply (pulls_mapped _ _ _ (fun p => mkFptr (p_data p) (apid (p_header p)) MIN_EPOCH)) in P.
  assert (M : mono (mapped (fun p => mkFptr (p_data p) (apid (p_header p)) MIN_EPOCH) (while_ok (direct pdec_next)))) by apply mono_mapped, mono_while_ok, mono_direct.
  assert (EV := for_each_pulls _ _ _ _ (filter_body (to_u16s i) (to_u16s e) None None) M _ _ _ P [] _ (filter_fold _ _ _ _ _ [])).
  assert (EQ : concat (map fp_data (filter (filter_keep (to_u16s i) (to_u16s e) None None) (map (fun p => mkFptr (p_data p) (apid (p_header p)) MIN_EPOCH) ps))) = concat (map p_data kps)).
  { clear -K SP. induction K as [|x l k HP K IH|x l k HP K IH]; [reflexivity| |]; cbn [map filter].
    - replace (filter_keep _ _ None None _) with true; [cbn [map concat fp_data]; rewrite IH; [reflexivity|intros; apply SP; right; assumption]|].
      symmetry. apply filter_keep_spec. cbn [fp_time fp_apid]. split; [split; [reflexivity|exact I]|]. apply wanted_accepted; [|exact HP].
      destruct (SP x (or_introl eq_refl)) as [HH _]. unfold header_ok in HH. lia.
    - replace (filter_keep _ _ None None _) with false; [apply IH; intros; apply SP; right; assumption|].
      symmetry. apply not_true_iff_false. rewrite filter_keep_spec. cbn [fp_time fp_apid]. intros [_ W]. apply HP. apply wanted_accepted in W; [exact W|].
      destruct (SP x (or_introl eq_refl)) as [HH _]. unfold header_ok in HH. lia. }
  cbn [app] in EV. rewrite EQ in EV.
  assert (EV2 : eventually (filter_command_live creatable oe (Some r) a) (went (status_of h'), Some (concat (map p_data kps)))).
  { eapply eventually_ext; [intro n; apply (command_live creatable oe r a i e CL CR SI SE (or_introl HF))|]. rewrite EB, EA. unfold filter_live. cbn [is_none negb orb].
    apply (eventually_map _ _ (fun x : list N * status => let '(out, st) := x in (went st, Some out))) in EV. exact EV. }
  assert (ALL : Forall (fun r0 : result packet => exists a0, r0 = Ok a0) items <-> items = map Ok ps).
  { split; [|intros ->; clear; induction ps; constructor; eauto]. intro F. destruct BE as [->|(e0 & rest & ->)]; [reflexivity|]. exfalso.
    apply Forall_app in F. destruct F as [_ F]. apply Forall_inv in F. destruct F as [x F]. discriminate. }
  rewrite ALL in BR. destruct h' as [s'| |]; cbn [status_of went] in EV2; [|left|congruence].
  - right. split; [|exact EV2]. intro C. apply BR in C. discriminate.
  - destruct (proj1 BR eq_refl) as [B1 B2]. auto.
Qed.
Print Assumptions C79_filter_apids.

(* the groups the time options want *)
Lemma timed_groups : forall gs i e before after kps,
  Forall (fun g => g_packets g <> [] /\ Forall (fun p => apid_of p = g_apid g) (g_packets g)) gs ->
  (forall g p, In g gs -> In p (g_packets g) -> sane p) ->
  kept (fun g => timely before after g /\ accepted i e (g_apid g)) gs kps ->
  concat (map fp_data (filter (filter_keep (to_u16s i) (to_u16s e) before after) (filter_map_opt fptr_of_group gs))) = concat (map group_bytes kps).
Proof.
  intros gs i e before after kps WF SP K. induction K as [|g l k HP K IH|g l k HP K IH]; [reflexivity| |];
  apply Forall_inv in WF as W1; apply Forall_inv_tail in WF; specialize (IH WF (fun g0 p0 I0 => SP g0 p0 (or_intror I0))); cbn [filter_map_opt];
  destruct W1 as [NE AP]; unfold fptr_of_group at 1; (destruct (g_packets g) as [|p rest] eqn:EP; [contradiction|]);
  (assert (HH : header_ok (p_header p)) by (apply (SP g p (or_introl eq_refl)); rewrite EP; left; reflexivity));
  (assert (EA : apid (p_header p) = g_apid g) by (inversion AP; assumption));
  (assert (FP : (sequence_flags (p_header p) < 4)%N) by apply HH); (assert (AL : (g_apid g < 65536)%N) by (rewrite <- EA; unfold header_ok in HH; lia));
  (assert (QL : is_last p || is_cont p = false <-> sequence_flags (p_header p) = 1%N \/ sequence_flags (p_header p) = 3%N)
    by (unfold is_last, is_cont, SEQ_LAST, SEQ_CONTINUATION; rewrite orb_false_iff, !N.eqb_neq; lia)).
  - destruct HP as [(p' & r' & t & E & FF & T & TB & TA) W]. rewrite EP in E. injection E as <- <-. rewrite (proj2 QL FF), T. cbn [filter].
    replace (filter_keep _ _ _ _ _) with true.
    + cbn [map concat fp_data]. rewrite IH. unfold group_bytes at 2. rewrite EP. reflexivity.
    + symmetry. apply filter_keep_spec. cbn [fp_time fp_apid]. rewrite EA. split; [split; [exact TB|destruct after; auto]|]. apply wanted_accepted; assumption.
  - destruct (is_last p || is_cont p) eqn:LC; [exact IH|]. destruct (cds_time p) as [t|] eqn:T; [|exact IH]. cbn [filter].
    replace (filter_keep _ _ _ _ _) with false; [exact IH|]. symmetry. apply not_true_iff_false. rewrite filter_keep_spec. cbn [fp_time fp_apid]. rewrite EA.
    intros [[TB TA] W]. apply HP. split; [|apply wanted_accepted in W; assumption]. exists p, rest, t. split; [exact EP|]. split; [apply QL; reflexivity|]. split; [exact T|].
    split; [exact TB|destruct after; auto].
Qed.
Lemma closed_sub : forall ps gs g, closed_groups ps gs -> In g gs -> exists all, grouping ps all /\ In g all.
Proof. intros ps gs g (all & G & [[-> _]|(x & -> & _)]) I; eexists; (split; [exact G|]); [exact I|apply in_or_app; left; exact I]. Qed.
Lemma group_sane : forall ps gs g p, Forall sane ps -> grouping ps gs -> In g gs -> In p (g_packets g) -> sane p.
Proof.
  intros ps gs g p F G I J. rewrite Forall_forall in F. apply F. rewrite <- (grouping_concat _ _ G). apply in_concat. exists (g_packets g). split; [apply in_map; exact I|exact J].
Qed.
Definition good_group (g : pgroup) : Prop := (g_packets g <> [] /\ Forall (fun p => apid_of p = g_apid g) (g_packets g)) /\ forall p, In p (g_packets g) -> sane p.
Lemma group_reads_good : forall s gs st, pd_ok s -> group_reads s gs st -> Forall good_group gs.
Proof.
  assert (A : forall ps gs g, Forall sane ps -> grouping ps gs -> In g gs -> good_group g).
  { intros ps gs g F G I. assert (W := grouping_wf _ _ G). rewrite Forall_forall in W. split; [apply W; exact I|]. intros p J. eapply group_sane; eassumption. }
  intros s gs st OK R. induction R as [s items s' gs R G O|s items s' gs gs' st R G O R' IH|s items gs R C|s items gs R C]; assert (SN := reads_sane _ _ _ OK R).
  - apply Forall_forall. intros g I. eapply A; eassumption.
  - apply Forall_app. split; [apply Forall_forall; intros g I; eapply A; eassumption|]. apply IH. eapply reads_shrinks; eassumption.
  - apply Forall_forall. intros g I. destruct (closed_sub _ _ _ C I) as (all & G & I2). eapply A; eassumption.
  - apply Forall_forall. intros g I. destruct (closed_sub _ _ _ C I) as (all & G & I2). eapply A; eassumption.
Qed.
(* with a time option: the chosen ones of the groups that are read *)
Theorem C79_filter_times : forall creatable output_exists r a gs st kps include exclude, of_bytes r ->
  fa_clobber a = true \/ output_exists = false -> creatable (fa_output a) = true ->
  stands_for (fa_include a) include -> stands_for (fa_exclude a) exclude -> fa_before a <> None \/ fa_after a <> None ->
  group_reads (pdec_new r) gs st ->
  kept (fun g => timely (fa_before a) (fa_after a) g /\ accepted include exclude (g_apid g)) gs kps ->
  eventually (filter_command_live creatable output_exists (Some r) a)
    (match st with Returned => Exited Success | Panicking => Aborted | Running => Going end, Some (concat (map group_bytes kps))) /\
  (st = Running -> forall n, fst (filter_command_live creatable output_exists (Some r) a n) = Going).
Proof.
  intros creatable oe r a gs st kps i e OK CL CR SI SE HF R K. destruct (pulls_groups _ _ _ R) as (h & P & <- & _).
  assert (GG := group_reads_good _ _ _ (of_bytes_ok _ OK) R).
  assert (M : mono (filter_mapped fptr_of_group groups_live)) by apply mono_filter_mapped, mono_groups.
  assert (HT : negb (is_none (fa_before a)) || negb (is_none (fa_after a)) = true) by (destruct (fa_before a), (fa_after a); cbn; try reflexivity; destruct HF; congruence).
  assert (P2 := pulls_filter_mapped _ _ _ fptr_of_group _ mono_groups _ _ _ P).
  assert (FO := filter_fold (to_u16s i) (to_u16s e) (fa_before a) (fa_after a) (filter_map_opt fptr_of_group gs) []). cbn [app] in FO. rewrite (timed_groups gs i e _ _ kps) in FO; [| | |exact K].
  2:{ eapply Forall_impl; [|exact GG]. intros g [X _]. exact X. }
  2:{ intros g p I J. rewrite Forall_forall in GG. apply (GG g I). exact J. }
  assert (CM := command_live creatable oe r a i e CL CR SI SE (or_intror HF)). unfold filter_live in CM. rewrite HT in CM. split.
  - assert (EV := for_each_pulls _ _ _ _ _ M _ _ _ P2 _ _ FO). eapply eventually_ext; [exact CM|].
    apply (eventually_map _ _ (fun x : list N * status => let '(out, st) := x in (went st, Some out))) in EV. exact EV.
  - intros E n. destruct h; try discriminate. rewrite CM. assert (H := for_each_hangs _ _ _ _ _ M _ _ P2 _ _ FO n). destruct (for_each _ _ n _ _) as [out st]. cbn [snd] in H. subst st. reflexivity.
Qed.
Print Assumptions C79_filter_times.

(* whenever the command is stopped, the output is a beginning of what it would have been; when it is through it stays so *)
Theorem C79_crash_points : forall creatable output_exists input a n m p q out out', n <= m ->
  filter_command_live creatable output_exists input a n = (p, out) -> filter_command_live creatable output_exists input a m = (q, out') ->
  (p <> Going -> q = p /\ out' = out) /\
  match out, out' with
  | Some x, Some y => exists z, y = x ++ z
  | None, None => True
  | _, _ => False
  end.
Proof.
  intros creatable oe input a n m p q out out' L. unfold filter_command_live.
  assert (SAME : forall p0 (o : option (list N)), (p0, o) = (p, out) -> (p0, o) = (q, out') ->
    (p <> Going -> q = p /\ out' = out) /\ match out, out' with Some x, Some y => exists z, y = x ++ z | None, None => True | _, _ => False end).
  { intros p0 o E1 E2. injection E1 as <- <-. injection E2 as <- <-. split; [auto|]. destruct o as [x|]; [exists []; rewrite app_nil_r; reflexivity|exact I]. }
  destruct (negb (fa_clobber a) && oe); [apply SAME|]. destruct input as [r|]; [|apply SAME]. destruct (negb (creatable (fa_output a))); [apply SAME|].
  destruct (parse_number_ranges (fa_include a)) as [i|]; [|apply SAME]. destruct (parse_number_ranges (fa_exclude a)) as [e|]; [|apply SAME].
  destruct (_ && _ && _ && _); [apply SAME|].
  assert (X : (snd (filter_live (to_u16s i) (to_u16s e) (fa_before a) (fa_after a) r n) <> Running ->
               filter_live (to_u16s i) (to_u16s e) (fa_before a) (fa_after a) r m = filter_live (to_u16s i) (to_u16s e) (fa_before a) (fa_after a) r n) /\
              exists l, fold_ok (filter_body (to_u16s i) (to_u16s e) (fa_before a) (fa_after a)) (fst (filter_live (to_u16s i) (to_u16s e) (fa_before a) (fa_after a) r n)) l =
                Val (fst (filter_live (to_u16s i) (to_u16s e) (fa_before a) (fa_after a) r m))).
  { unfold filter_live. destruct (_ || _); apply for_each_more; try exact L; [apply mono_filter_mapped, mono_groups|apply mono_mapped, mono_while_ok, mono_direct]. }
  destruct X as [X1 [l X2]]. rewrite filter_fold in X2.
  destruct (filter_live _ _ _ _ r n) as [x sx], (filter_live _ _ _ _ r m) as [y sy]. cbn [fst snd] in X1, X2.
  assert (Y : y = x ++ concat (map fp_data (filter (filter_keep (to_u16s i) (to_u16s e) (fa_before a) (fa_after a)) l))) by congruence.
  intros E1 E2. split.
  - intro NG. assert (sx <> Running) by (intros ->; apply NG; congruence). specialize (X1 H). injection X1 as -> ->. destruct sx; split; congruence.
  - assert (out = Some x) by (destruct sx; congruence). assert (out' = Some y) by (destruct sy; congruence). subst out out'. eexists. exact Y.
Qed.
Print Assumptions C79_crash_points.

(* ---- diff ---- *)
Lemma keys_fold : forall (csum : list N -> N) ps lp (ks : list key), Forall sane ps ->
  exists ks' : list key, fold_ok (fun (b : list packet * list key) p => let* body := slice_from (p_data p) HDR_LEN in
                   Val (fst b ++ [p], snd b ++ [(apid (p_header p), sequence_id (p_header p), csum body)])) (lp, ks) ps = Val (lp ++ ps, ks').
Proof.
  induction ps as [|p ps IH]; intros lp ks F; cbn [fold_ok]; [exists ks; rewrite app_nil_r; reflexivity|].
  apply Forall_inv in F as F1. apply Forall_inv_tail in F. rewrite slice_from_ok by (unfold HDR_LEN; apply F1). cbn [obind fst snd].
  destruct (IH (lp ++ [p]) (ks ++ [(apid (p_header p), sequence_id (p_header p), csum (skipn HDR_LEN (p_data p)))]) F) as [ks' E]. exists ks'. rewrite E, <- app_assoc. reflexivity.
Qed.
Lemma keys_reads : forall csum r items h, of_bytes r -> reads pdec_next (pdec_new r) items h ->
  match h with
  | EndsIn _ => exists ks, eventually (keys_live csum r) (Some (Val (keep_ok items, ks)))
  | Breaks => eventually (keys_live csum r) (Some Panic)
  | Forever => forall n, keys_live csum r n = None
  end.
Proof.
  intros csum r items h OK R. assert (P := pulls_packets _ _ _ R). destruct (keys_fold csum (keep_ok items) ([] : list packet) ([] : list key) (reads_sane _ _ _ (of_bytes_ok _ OK) R)) as [ks E]. cbn [app] in E.
  assert (EV := for_each_pulls _ _ _ _ _ mono_packets _ _ _ P _ _ E). apply (result_of_eventually _ _ _ (@Val (list packet * list key))) in EV. destruct h as [s'| |].
  - exists ks. exact EV.
  - exact EV.
  - intro n. apply result_running. eapply for_each_hangs; [apply mono_packets|exact P|exact E].
Qed.
Lemma diff_keys_sane : forall csum ps, Forall sane ps -> exists ks, diff_keys csum ps = Val ks.
Proof.
  induction ps as [|p ps IH]; intro F; cbn [diff_keys]; [eauto|]. apply Forall_inv in F as F1. apply Forall_inv_tail in F.
  rewrite slice_from_ok by (unfold HDR_LEN; apply F1). destruct (IH F) as [ks E]. rewrite E. cbn [obind]. eauto.
Qed.
Theorem C79_diff : forall csum l right il hl, of_bytes l -> reads pdec_next (pdec_new l) il hl ->
  match hl with
  | Breaks => eventually (diff_live csum (Some l) right) (Some Panic)
  | Forever => forall n, diff_live csum (Some l) right n = None
  | EndsIn _ =>
      match right with
      | None => eventually (diff_live csum (Some l) right) (Some (Val None))
      | Some r => forall ir hr, of_bytes r -> reads pdec_next (pdec_new r) ir hr ->
          match hr with
          | Breaks => eventually (diff_live csum (Some l) right) (Some Panic)
          | Forever => forall n, diff_live csum (Some l) right n = None
          | EndsIn _ => eventually (diff_live csum (Some l) right) (Some (let* d := diff_cmd csum il ir in Val (Some d)))
          end
      end
  end.
Proof.
  intros csum l right il hl OL RL. assert (KL := keys_reads csum _ _ _ OL RL). destruct hl as [sl| |].
  - destruct KL as [kl [n0 KL]]. destruct right as [r|].
    + intros ir hr OR RR. assert (KR := keys_reads csum _ _ _ OR RR). destruct hr as [sr| |].
      * destruct KR as [kr [n1 KR]]. exists (n0 + n1). intros n L. unfold diff_live. rewrite KL, KR by lia. unfold diff_cmd. rewrite !keep_ok_map. reflexivity.
      * destruct KR as [n1 KR]. exists (n0 + n1). intros n L. unfold diff_live. rewrite KL, KR by lia. reflexivity.
      * intro n. unfold diff_live. destruct (keys_live csum l n) as [[[lp lk]|]|] eqn:E; [|exfalso|reflexivity].
        -- rewrite KR. reflexivity.
        -- apply (result_more _ _ _ _ _ _ _ mono_packets n (n + n0)) in E; [|lia]. specialize (KL (n + n0) ltac:(lia)). discriminate (eq_trans (eq_sym KL) E).
    + exists n0. intros n L. unfold diff_live. rewrite KL by lia. reflexivity.
  - destruct KL as [n0 KL]. exists n0. intros n L. unfold diff_live. rewrite KL by lia. reflexivity.
  - intro n. unfold diff_live. rewrite KL. reflexivity.
Qed.
Print Assumptions C79_diff.
(* if the left file cannot be opened the right one is not looked at *)
Theorem C79_diff_left_missing : forall csum right n, diff_live csum None right n = Some (Val None).
Proof. reflexivity. Qed.
Print Assumptions C79_diff_left_missing.

(* ---- merge: the first input, in the order of the hash table, that cannot be read to its end decides ---- *)
Lemma insert_fold : forall ps s, fold_ok (fun s p => Val (set_insert s p)) s ps = Val (fold_left set_insert ps s).
Proof. induction ps as [|p ps IH]; intro s; [reflexivity|]. cbn [fold_ok fold_left obind]. apply IH. Qed.
Lemma pointers_reads : forall m path r gs st, group_reads (pdec_new r) gs st ->
  match st with
  | Returned => eventually (pointers_live m path r) (Some (Val (set_collect (filter_map_opt (group_ptr m path) gs))))
  | Panicking => eventually (pointers_live m path r) (Some Panic)
  | Running => forall n, pointers_live m path r n = None
  end.
Proof.
  intros m path r gs st R. destruct (pulls_groups _ _ _ R) as (h & P & <- & _).
  assert (M : mono (filter_mapped (group_ptr m path) groups_live)) by apply mono_filter_mapped, mono_groups.
  assert (P2 := pulls_filter_mapped _ _ _ (group_ptr m path) _ mono_groups _ _ _ P).
  assert (EV := for_each_pulls _ _ _ _ _ M _ _ _ P2 [] _ (insert_fold _ _)). apply (result_of_eventually _ _ _ (@Val (list ptr))) in EV.
  destruct h as [s'| |]; [exact EV|exact EV|]. intro n. apply result_running. eapply for_each_hangs; [exact M|exact P2|apply insert_fold].
Qed.
Lemma pointers_more : forall m path r n k x, n <= k -> pointers_live m path r n = Some x -> pointers_live m path r k = Some x.
Proof. intros m path r n k x L E. exact (result_more _ _ _ _ _ _ _ (mono_filter_mapped _ _ _ _ _ mono_groups) n k _ _ x L E). Qed.
Theorem C79_merge : forall m before path r after index gs st,
  Forall (fun x => exists gs, group_reads (pdec_new (snd x)) gs Returned) before -> group_reads (pdec_new r) gs st ->
  match st with
  | Returned => True
  | Panicking => eventually (index_live m (before ++ (path, r) :: after) index) (Some Panic)
  | Running => forall n, index_live m (before ++ (path, r) :: after) index n = None
  end.
Proof.
  intros m before path r after index gs st F R. revert index. induction F as [|[q x] before (gs0 & R0) F IH]; intro index.
  - cbn [app]. assert (P := pointers_reads m path _ _ _ R). destruct st; [exact I| |].
    + destruct P as [n0 H]. exists n0. intros n L. cbn [index_live]. rewrite H by exact L. reflexivity.
    + intro n. cbn [index_live]. rewrite P. reflexivity.
  - cbn [snd] in R0. destruct (pointers_reads m q _ _ _ R0) as [n0 H].
    specialize (IH (set_union index (set_collect (filter_map_opt (group_ptr m q) gs0)))). cbn [app]. destruct st; [exact I| |].
    + destruct IH as [n1 H1]. exists (n0 + n1). intros n L. cbn [index_live]. rewrite H by lia. apply H1. lia.
    + intro n. cbn [index_live]. destruct (pointers_live m q x n) as [y|] eqn:EY; [|reflexivity].
      apply (pointers_more _ _ _ _ (n + n0)) in EY; [|lia]. rewrite H in EY by lia. injection EY as <-. apply IH.
Qed.
Print Assumptions C79_merge.
(* and if all end: the index of the groups of all *)
Theorem C79_merge_reads : forall m inputs gss index, Forall2 (fun x gs => group_reads (pdec_new (snd x)) gs Returned) inputs gss ->
  eventually (index_live m inputs index)
    (Some (Val (fold_left set_union (map (fun xg => set_collect (filter_map_opt (group_ptr m (fst (fst xg))) (snd xg))) (combine inputs gss)) index))).
Proof.
  intros m inputs gss index F. revert index. induction F as [|[p r] gs inputs gss R F IH]; intro index.
  - exists 0. intros n _. reflexivity.
  - cbn [snd] in R. destruct (pointers_reads m p _ _ _ R) as [n0 H]. destruct (IH (set_union index (set_collect (filter_map_opt (group_ptr m p) gs)))) as [n1 H1].
    exists (n0 + n1). intros n L. cbn [index_live]. rewrite H by lia. cbn [combine map fold_left fst snd]. apply H1. lia.
Qed.
Print Assumptions C79_merge_reads.

(* ---- on files: the models of the commands that take the finished list of items ---- *)
Lemma file_bytes : forall bs, bytes_ok bs -> of_bytes (reader_of bs).
Proof.
  intros bs B. unfold of_bytes. destruct bs as [|b bs]; [constructor; [exact I|constructor]|]. rewrite transcript_data by discriminate. apply tbytes_ok_map. exact B.
Qed.
Lemma file_kinds : forall bs, bytes_ok bs ->
  (exists ws s' s2, file_holds bs ws /\ file_items bs = Val (map Ok (packets_at 0 ws)) /\
     reads pdec_next (pdec_new (reader_of bs)) (map Ok (packets_at 0 ws)) (EndsIn s') /\ pdec_next s' = Val (None, s2)) \/
  (exists ws, too_big bs ws /\ file_items bs = Panic /\ reads pdec_next (pdec_new (reader_of bs)) (map Ok (packets_at 0 ws)) Breaks).
Proof.
  intros bs B. destruct (C78_every_file bs B) as (ws & [H|H]).
  - left. destruct (proj1 (C79_inputs bs ws) H) as (s' & R & s2 & E). exists ws, s', s2. split; [exact H|]. split; [apply file_items_ok; exact H|]. auto.
  - right. exists ws. split; [exact H|]. split; [eapply file_items_panic; exact H|]. apply C79_inputs. exact H.
Qed.
Theorem C79_agrees_info : forall ovf time_of bs, bytes_ok bs ->
  eventually (info_live ovf time_of (reader_of bs)) (Some (let* items := file_items bs in summarize ovf time_of items)).
Proof.
  intros ovf time_of bs B. assert (OB := file_bytes bs B). destruct (file_kinds bs B) as [(ws & s' & s2 & _ & -> & R & _)|(ws & _ & -> & R)]; assert (C := C79_info ovf time_of _ _ _ OB R); cbn beta iota in C.
  - destruct C as (res & E & V). cbn [obind]. rewrite E. exact V.
  - exact C.
Qed.
Print Assumptions C79_agrees_info.
Theorem C79_agrees_diff : forall csum left right, bytes_ok left -> bytes_ok right ->
  eventually (diff_live csum (Some (reader_of left)) (Some (reader_of right)))
    (Some (let* il := file_items left in let* ir := file_items right in let* d := diff_cmd csum il ir in Val (Some d))).
Proof.
  intros csum l r BL BR. assert (OL := file_bytes l BL). assert (OR := file_bytes r BR).
  destruct (file_kinds l BL) as [(wl & sl & s2 & _ & -> & RL & _)|(wl & _ & -> & RL)]; assert (C := C79_diff csum _ (Some (reader_of r)) _ _ OL RL); cbn beta iota in C; [|exact C].
  destruct (file_kinds r BR) as [(wr & sr & s3 & _ & -> & RR & _)|(wr & _ & -> & RR)]; specialize (C _ _ OR RR); exact C.
Qed.
Print Assumptions C79_agrees_diff.
Theorem C79_agrees_merge : forall m inputs index, Forall (fun x => bytes_ok (snd x)) inputs ->
  eventually (index_live m (map (fun x => (fst x, reader_of (snd x))) inputs) index) (Some (build_index m inputs index)).
Proof.
  intros m inputs index F. revert index. induction F as [|[p bs] inputs B F IH]; intro index; [exists 0; reflexivity|]. cbn [snd] in B. cbn [map fst snd build_index].
  unfold file_pointers. rewrite file_packets_items.
  destruct (file_kinds bs B) as [(ws & s' & s2 & FH & -> & R & E)|(ws & TB & -> & R)]; cbn [obind]; rewrite ?keep_ok_map.
  - destruct (grouping_total (packets_at 0 ws)) as [gs G]. rewrite (file_groups_ok _ _ G). cbn [obind].
    destruct (pointers_reads m p _ _ _ (proj1 (C79_group_inputs bs ws gs) FH G)) as [n0 H].
    destruct (IH (set_union index (set_collect (filter_map_opt (group_ptr m p) gs)))) as [n1 H1]. exists (n0 + n1). intros n L. cbn [index_live]. rewrite H by lia. apply H1. lia.
  - destruct (C79_closed_groups (packets_at 0 ws)) as (gs & C & _). destruct (pointers_reads m p _ _ _ (proj1 (proj2 (C79_group_inputs bs ws gs)) TB C)) as [n0 H].
    exists n0. intros n L. cbn [index_live]. rewrite H by exact L. reflexivity.
Qed.
Print Assumptions C79_agrees_merge.
Lemma accepted_dec : forall i e v, accepted i e v \/ ~ accepted i e v.
Proof.
  intros i e v. unfold accepted. rewrite <- to_u16s_nil. destruct (in_dec N.eq_dec v e), (in_dec N.eq_dec v i), (to_u16s i); tauto || (right; intros [[C|C] _]; [discriminate|tauto]).
Qed.
Lemma timely_dec : forall before after g, timely before after g \/ ~ timely before after g.
Proof.
  intros before after g. unfold timely. destruct (g_packets g) as [|f rest]; [right; intros (f & rest & t & E & _); discriminate|].
  destruct (N.eq_dec (sequence_flags (p_header f)) 1) as [F|F1]; [|destruct (N.eq_dec (sequence_flags (p_header f)) 3) as [F|F3]].
  3:{ right. intros (f' & r' & t & E & [C|C] & _); injection E as <- <-; contradiction. }
  all: destruct (cds_time f) as [t|] eqn:T; [|right; intros (f' & r' & t & E & _ & C & _); injection E as <- <-; congruence];
    destruct (Z_lt_dec t (match before with Some b => b | None => 73049 * 86400 * 1000000000 end)) as [L|L]; [|right; intros (f' & r' & t' & E & _ & C & H & _); injection E as <- <-; rewrite T in C; injection C as <-; contradiction];
    (assert (D : match after with Some a => (a <= t)%Z | None => True end \/ ~ match after with Some a => (a <= t)%Z | None => True end) by (destruct after as [a|]; [destruct (Z_le_dec a t); auto|auto]));
    (destruct D as [D|D]; [left; exists f, rest, t; split; [reflexivity|]; split; [auto|]; split; [exact T|]; split; [exact L|destruct after; exact D]|right; intros (f' & r' & t' & E & _ & C & _ & H); injection E as <- <-; rewrite T in C; injection C as <-; apply D; destruct after; exact H]).
Qed.
Theorem C79_agrees_filter : forall creatable fs a, disk_ok fs -> fa_input a <> fa_output a ->
  let live := filter_command_live creatable (exists_file fs (fa_output a)) (option_map reader_of (aget (fa_input a) fs)) a in
  match filter_command creatable fs a with
  | Val (x, fs') => exists out, eventually live (Exited x, out) /\ match out with Some o => only_written fs (fa_output a) o fs' | None => fs' = fs end
  | Panic => exists out, eventually live (Aborted, Some out)
  end.
Proof.
  intros creatable fs a D NE live. unfold live. clear live.
  destruct (negb (fa_clobber a) && exists_file fs (fa_output a)) eqn:CL.
  { unfold filter_command. rewrite CL. exists None. split; [|reflexivity]. exists 0. intros n _. unfold filter_command_live. rewrite CL. reflexivity. }
  destruct (aget (fa_input a) fs) as [bs|] eqn:GI.
  2:{ unfold filter_command. rewrite CL, GI. exists None. split; [|reflexivity]. exists 0. intros n _. unfold filter_command_live. rewrite CL. reflexivity. }
  cbn [option_map].
  destruct (creatable (fa_output a)) eqn:CR.
  2:{ unfold filter_command. rewrite CL, GI, CR. cbn [negb]. exists None. split; [|reflexivity]. exists 0. intros n _. unfold filter_command_live. rewrite CL, CR. reflexivity. }
  assert (W : forall c, only_written fs (fa_output a) c (aset (fa_output a) c (aset (fa_output a) [] fs)) /\ only_written fs (fa_output a) [] (aset (fa_output a) [] fs)).
  { intro c. split; (split; [apply aget_aset_eq|]); intros q NQ; rewrite ?aget_aset_neq by congruence; reflexivity. }
  assert (FA : (exists n0, forall n, n0 <= n -> filter_command_live creatable (exists_file fs (fa_output a)) (Some (reader_of bs)) a n = (Exited Failure, Some [])) -> 
     filter_command creatable fs a = Val (Failure, aset (fa_output a) [] fs) ->
     match filter_command creatable fs a with
     | Val (x, fs') => exists out, eventually (filter_command_live creatable (exists_file fs (fa_output a)) (Some (reader_of bs)) a) (Exited x, out) /\ match out with Some o => only_written fs (fa_output a) o fs' | None => fs' = fs end
     | Panic => exists out, eventually (filter_command_live creatable (exists_file fs (fa_output a)) (Some (reader_of bs)) a) (Aborted, Some out)
     end).
  { intros EV ->. exists (Some []). split; [exact EV|]. apply (W []). }
  destruct (parse_number_ranges (fa_include a)) as [i|] eqn:PI.
  2:{ apply FA; [exists 0; intros n _; unfold filter_command_live; rewrite CL, CR, PI; reflexivity|]. unfold filter_command. rewrite CL, GI, CR. cbn [negb]. unfold filter_main. rewrite PI. reflexivity. }
  destruct (parse_number_ranges (fa_exclude a)) as [e|] eqn:PE.
  2:{ apply FA; [exists 0; intros n _; unfold filter_command_live; rewrite CL, CR, PI, PE; reflexivity|]. unfold filter_command. rewrite CL, GI, CR. cbn [negb]. unfold filter_main. rewrite PI, PE. reflexivity. }
  destruct (is_nil (to_u16s i) && is_nil (to_u16s e) && is_none (fa_before a) && is_none (fa_after a)) eqn:NF.
  { apply FA; [exists 0; intros n _; unfold filter_command_live; rewrite CL, CR, PI, PE, NF; reflexivity|]. unfold filter_command. rewrite CL, GI, CR. cbn [negb]. unfold filter_main. rewrite PI, PE, NF. reflexivity. }
  clear FA.
  assert (SI : stands_for (fa_include a) i) by (apply C50_parse_number_ranges; exact PI). assert (SE : stands_for (fa_exclude a) e) by (apply C50_parse_number_ranges; exact PE).
  assert (CL' : fa_clobber a = true \/ exists_file fs (fa_output a) = false) by (destruct (fa_clobber a), (exists_file fs (fa_output a)); auto; discriminate).
  assert (B : bytes_ok bs) by (eapply D; exact GI). assert (OB := file_bytes bs B).
  assert (CASES : (fa_before a <> None \/ fa_after a <> None) \/ (fa_before a = None /\ fa_after a = None /\ exists v, In v (i ++ e) /\ (v < 65536)%N)).
  { destruct (fa_before a) as [b0|]; [left; left; discriminate|]. destruct (fa_after a) as [a0|]; [left; right; discriminate|]. right. split; [reflexivity|]. split; [reflexivity|].
    cbn [is_none] in NF. rewrite !andb_true_r in NF. apply andb_false_iff in NF. 
    assert (NN : forall l, is_nil (to_u16s l) = false -> exists v, In v l /\ (v < 65536)%N).
    { intros l H. unfold to_u16s in H. destruct (filter (fun v => v <? 65536)%N l) as [|v t] eqn:E; [discriminate|]. exists v. assert (I : In v (filter (fun v => v <? 65536)%N l)) by (rewrite E; left; reflexivity).
      apply filter_In in I. destruct I as [I L]. apply N.ltb_lt in L. auto. }
    destruct NF as [NF|NF]; apply NN in NF; destruct NF as (v & I & L); exists v; (split; [apply in_or_app; auto|exact L]). }
  assert (CMD : filter_command creatable fs a = let* items := file_items bs in let* r := filter_cmd items (to_u16s i) (to_u16s e) (fa_before a) (fa_after a) in
     match r with None => Val (Failure, aset (fa_output a) [] fs) | Some out => Val (Success, aset (fa_output a) out (aset (fa_output a) [] fs)) end).
  { unfold filter_command. rewrite CL, GI, CR. cbn [negb]. rewrite aget_aset_neq, GI by congruence. unfold filter_main. rewrite PI, PE, NF. destruct (file_items bs); reflexivity. }
  rewrite CMD. clear CMD.
  assert (EXK : forall A (P : A -> Prop) (l : list A), (forall x, P x \/ ~ P x) -> exists k, kept P l k).
  { intros A P l H. induction l as [|x l [k IH]]; [exists []; constructor|]. destruct (H x); [exists (x :: k); apply kept_yes|exists k; apply kept_no]; assumption. }
  destruct (file_kinds bs B) as [(ws & s' & s2 & FH & EI & R & E)|(ws & TBG & EI & R)]; rewrite EI; cbn [obind].
  - destruct CASES as [T|(TB & TA & V)].
    + destruct (grouping_total (packets_at 0 ws)) as [gs G].
      destruct (C49_filter_times bs ws gs (to_u16s i) (to_u16s e) (fa_before a) (fa_after a) FH G T) as (items & kps & Y & K & EC).
      assert (EI2 : items = map Ok (packets_at 0 ws)) by (eapply yields_unique; [exact Y|apply C78_reading; exact FH]). subst items. rewrite EC. cbn [obind].
      exists (Some (concat (map group_bytes kps))). split; [|apply (W (concat (map group_bytes kps)))].
      apply (C79_filter_times creatable (exists_file fs (fa_output a)) (reader_of bs) a gs Returned kps i e OB CL' CR SI SE T (proj1 (C79_group_inputs bs ws gs) FH G)). eapply kept_ext; [|exact K]. intros g Ig. cbv beta. rewrite wanted_accepted; [reflexivity|]. destruct FH as (HW & _). eapply group_apid; eassumption.
    + rewrite TB, TA. destruct (C49_filter_apids bs ws (to_u16s i) (to_u16s e) FH) as (items & kps & Y & K & EC).
      { destruct V as (v & I & L). apply in_app_or in I. destruct I as [I|I]; [left|right]; intro C; eapply (proj1 (to_u16s_nil _) C v) in I; lia. }
      assert (EI2 : items = map Ok (packets_at 0 ws)) by (eapply yields_unique; [exact Y|apply C78_reading; exact FH]). subst items. rewrite EC. cbn [obind].
      exists (Some (concat (map wire_bytes kps))). split; [|apply (W (concat (map wire_bytes kps)))].
      assert (KP : exists kp, kept (fun p => accepted i e (apid (p_header p))) (packets_at 0 ws) kp /\ map p_data kp = map wire_bytes kps).
      { destruct FH as (HW & _). clear -K HW. revert K. generalize 0. intro off. intro K. revert off. induction K as [|w l k P K IH|w l k P K IH]; intro off; [exists []; split; [constructor|reflexivity]| |];
          apply Forall_inv in HW as W1; apply Forall_inv_tail in HW; destruct (IH HW (off + length (wire_bytes w))) as (kp & K2 & E); cbn [packets_at];
          (assert (LA : (apid (w_header w) < 65536)%N) by (destruct W1 as (H & _); unfold header_ok in H; lia)).
        - eexists (_ :: kp). split; [apply kept_yes; [cbn [p_header]; apply wanted_accepted; assumption|exact K2]|]. cbn [map p_data]. rewrite E. reflexivity.
        - exists kp. split; [apply kept_no; [cbn [p_header]; rewrite <- wanted_accepted by exact LA; exact P|exact K2]|exact E]. }
      destruct KP as (kp & K2 & EK). rewrite <- EK.
      destruct (C79_filter_apids creatable (exists_file fs (fa_output a)) (reader_of bs) a _ _ (packets_at 0 ws) kp i e OB CL' CR SI SE V TB TA R (or_introl eq_refl) K2) as [(C & _)|[_ C]]; [discriminate|exact C].
  - destruct CASES as [T|(TB & TA & V)].
    + destruct (C79_closed_groups (packets_at 0 ws)) as (gs & CG & _).
      destruct (EXK _ (fun g => timely (fa_before a) (fa_after a) g /\ accepted i e (g_apid g)) gs) as [k K]; [|eexists; apply (C79_filter_times creatable (exists_file fs (fa_output a)) (reader_of bs) a gs Panicking k i e OB CL' CR SI SE T (proj1 (proj2 (C79_group_inputs bs ws gs)) TBG CG) K)].
      intro g. destruct (accepted_dec i e (g_apid g)), (timely_dec (fa_before a) (fa_after a) g); tauto.
    + destruct (EXK _ (fun p => accepted i e (apid (p_header p))) (packets_at 0 ws)) as [k K].
      * intro p. apply accepted_dec.
      * destruct (C79_filter_apids creatable (exists_file fs (fa_output a)) (reader_of bs) a _ _ (packets_at 0 ws) k i e OB CL' CR SI SE V TB TA R (or_introl eq_refl) K) as [(_ & _ & C)|[X C]]; [eexists; exact C|]. destruct X. auto.
Qed.
Print Assumptions C79_agrees_filter.

(* ---- a directory: File::open succeeds on it, and every read fails ---- *)
Definition directory (c : N) : reader := mkReader [] (Failing c).
Theorem C79_directory_refuted : forall c, let d := directory c in
  (forall ovf time_of n, info_live ovf time_of d n = None) /\
  (forall csum right n, diff_live csum (Some d) right n = None) /\
  (forall m path index n, index_live m [(path, d)] index n = None) /\
  (forall creatable a n, creatable (fa_output a) = true -> stands_for (fa_include a) [0%N] -> stands_for (fa_exclude a) [] -> fa_clobber a = true -> fa_before a <> None ->
     filter_command_live creatable false (Some d) a n = (Going, Some [])) /\
  (forall creatable a n, creatable (fa_output a) = true -> stands_for (fa_include a) [0%N] -> stands_for (fa_exclude a) [] -> fa_clobber a = true -> fa_before a = None -> fa_after a = None ->
     filter_command_live creatable false (Some d) a (S n) = (Exited Success, Some [])).
Proof.
  intros c d. assert (OB : of_bytes d) by constructor. assert (R : reads pdec_next (pdec_new d) [] Forever) by (apply reads_fail, failing_forever).
  assert (GR : group_reads (pdec_new d) [] Running).
  { eapply gr_fail; [exact R|]. exists []. split; [constructor|]. left. split; [reflexivity|]. intros [|] ? C; discriminate. }
  split; [|split; [|split; [|split]]].
  - intros. apply (C79_info ovf time_of d [] Forever OB R).
  - intros. apply (C79_diff csum d right [] Forever OB R).
  - intros. apply (C79_merge m [] path d [] index [] Running (Forall_nil _) GR).
  - intros creatable a n CR SI SE CL HB.
    destruct (C79_filter_times creatable false d a [] Running [] [0%N] [] OB (or_introl CL) CR SI SE (or_introl HB) GR (kept_nil _)) as [EV GO]. specialize (GO eq_refl).
    assert (G := GO n). destruct (filter_command_live creatable false (Some d) a n) as [p out] eqn:E. cbn [fst] in G. subst p. f_equal.
    destruct EV as [n0 EV]. assert (X := EV (n + n0) ltac:(lia)).
    destruct (C79_crash_points creatable false (Some d) a n (n + n0) _ _ _ _ ltac:(lia) E X) as [_ Y]. cbn [map concat] in Y. destruct out as [x|]; [|destruct Y].
    destruct Y as [z Y]. symmetry in Y. apply app_eq_nil in Y. destruct Y as [-> _]. reflexivity.
  - intros creatable a n CR SI SE CL HB HA. rewrite (command_live creatable false d a [0%N] [] (or_introl CL) CR SI SE); [rewrite HB, HA; reflexivity|].
    left. exists 0%N. split; [left; reflexivity|reflexivity].
Qed.
Print Assumptions C79_directory_refuted.

(* a packet of apid 5 and a beginning of one: the device fails there; with a time option nothing is written, without one the packet is *)
Definition ex_bytes : list N := [8; 5; 192; 0; 0; 0; 9; 8; 5]%N.
Definition ex_reader : reader := mkReader [EvData ex_bytes] (Failing 5).
Definition ex_args (before : option Z) : filter_args := mkFilterArgs [[53%N]] [] before None true 1%N 2%N.
Example C79_ex_device : filter_command_live (fun _ => true) false (Some ex_reader) (ex_args None) 10 = (Exited Success, Some [8; 5; 192; 0; 0; 0; 9]%N) /\
  filter_command_live (fun _ => true) false (Some ex_reader) (ex_args (Some 7%Z)) 10 = (Going, Some []) /\
  filter_command_live (fun _ => true) false (Some ex_reader) (ex_args None) 1 = (Going, Some [8; 5; 192; 0; 0; 0; 9]%N) /\
  filter_command_live (fun _ => true) false (Some ex_reader) (ex_args None) 0 = (Going, Some []).
Proof. repeat split; vm_compute; reflexivity. Qed.
Example C79_ex_panic : filter_command_live (fun _ => true) false (Some (reader_of [8; 5; 192; 0; 0; 0; 9; 0; 0; 0; 0; 255; 255]%N)) (ex_args None) 10 = (Aborted, Some [8; 5; 192; 0; 0; 0; 9]%N).
Proof. vm_compute. reflexivity. Qed.
(* its hypotheses *)
Example C79_ex_reads : exists ws, file_holds ex_bytes ws /\ reads pdec_next (pdec_new ex_reader) (map Ok (packets_at 0 ws)) Forever /\ of_bytes ex_reader /\ ws <> [].
Proof.
  assert (W : exists w, wire_ok w /\ wire_bytes w = [8; 5; 192; 0; 0; 0; 9]%N).
  { apply wire_of_bytes; [repeat constructor|cbn; lia|vm_compute; reflexivity]. }
  destruct W as (w & W & E). exists [w].
  assert (FH : file_holds ex_bytes [w]).
  { split; [constructor; [exact W|constructor]|]. split; [constructor; [rewrite E; cbn; lia|constructor]|]. exists [8; 5]%N. cbn [map concat]. rewrite E. split; [reflexivity|].
    split; [repeat constructor|]. split; [left; cbn; lia|cbn; lia]. }
  split; [exact FH|]. split; [|split; [repeat constructor|discriminate]].
  apply (proj2 (proj2 (C79_inputs ex_bytes [w])) ex_reader 5%N FH); reflexivity.
Qed.
