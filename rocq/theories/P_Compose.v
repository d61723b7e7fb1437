(* Property C94: running the tools on each other's outputs *)
From Coq Require Import Permutation Sorted.
From Verif Require Import Base S_Bits M_Reader M_Packet M_Group S_Packet S_Group M_Timecode L_Base L_Packet L_Group M_Merge S_Merge L_Merge P_Merge
  M_Cli S_Cli P_CliFilter M_Main S_Main P_Main P_LiveCmd S_Compose L_Compose.
Open Scope N_scope.

Lemma may_write_after : forall fs p c fs' k o, only_written fs p c fs' -> o <> p -> may_write fs k o -> may_write fs' k o.
Proof. intros fs p c fs' k o [_ W] N [H|H]; [left; exact H|right; rewrite (W o N); exact H]. Qed.
Lemma ready_after : forall creatable fs a b c fs', only_written fs (fa_output a) c fs' -> fa_input b = fa_output a -> ready creatable fs b -> ready creatable fs' b.
Proof.
  intros creatable fs a b c fs' W F (M & C & N). split; [|split; assumption]. eapply may_write_after; [exact W|congruence|exact M].
Qed.
Lemma kept_from : forall bs ws P kps, file_holds bs ws -> kept P ws kps -> file_holds (concat (map wire_bytes kps)) kps.
Proof.
  intros bs ws P kps (HW & HL & _) K. split; [eapply kept_incl; eassumption|]. split; [eapply kept_incl; eassumption|].
  exists []. rewrite app_nil_r. split; [reflexivity|]. split; [constructor|]. split; [apply incomplete_nil|cbn; lia].
Qed.

(* Apid filters: what is left after two of them is what both accept *)
Theorem C94_apid_filters : forall creatable fs a b bs ws ia ea ib eb,
  ready creatable fs a -> ready creatable fs b -> fa_input b = fa_output a ->
  aget (fa_input a) fs = Some bs -> file_holds bs ws -> untimed a -> untimed b ->
  numbers a ia ea -> some_apid ia ea -> numbers b ib eb -> some_apid ib eb ->
  exists ka kb, piped creatable fs a b (concat (map wire_bytes ka)) (concat (map wire_bytes kb)) /\
    kept (fun w => accepted ia ea (apid (w_header w))) ws ka /\
    kept (fun w => accepted ia ea (apid (w_header w)) /\ accepted ib eb (apid (w_header w))) ws kb.
Proof.
  intros creatable fs a b bs ws ia ea ib eb RA RB F GI FH [UA1 UA2] [UB1 UB2] [IA EA] SA [IB EB] SB.
  destruct (RA) as (MA & CA & NA).
  destruct (C56_filter_command_apids creatable fs a bs ws ia ea MA CA NA GI FH IA EA SA UA1 UA2) as (ka & fs1 & K & E1 & W1).
  destruct (ready_after _ _ _ _ _ _ W1 F RB) as (MB & CB & NB). assert (FK := kept_from _ _ _ _ FH K).
  assert (G1 : aget (fa_input b) fs1 = Some (concat (map wire_bytes ka))) by (rewrite F; apply W1).
  destruct (C56_filter_command_apids creatable fs1 b _ ka ib eb MB CB NB G1 FK IB EB SB UB1 UB2) as (kb & fs2 & K2 & E2 & W2).
  exists ka, kb. split; [exists fs1, fs2; auto|]. split; [exact K|]. apply (kept_twice _ _ _ _ _ _ K K2).
Qed.
Print Assumptions C94_apid_filters.

Lemma groups_from : forall bs ws gs P kps, file_holds bs ws -> grouping (packets_at 0 ws) gs -> kept P gs kps ->
  Forall proper kps /\ Forall from_wire (concat (map g_packets kps)).
Proof.
  intros bs ws gs P kps (HW & HL & _) G K. split; [eapply kept_incl; [exact K|eapply grouping_proper; exact G]|].
  assert (FW := packets_from ws 0 HW HL). rewrite <- (grouping_concat _ _ G) in FW. clear -FW K.
  induction K as [|g gs kps X K IH|g gs kps X K IH]; cbn [map concat] in *; [constructor| |]; apply Forall_app in FW; [apply Forall_app; split; [apply FW|]|]; apply IH, FW.
Qed.

(* Time options, then apid options: as with both at once *)
Theorem C94_time_then_apid : forall creatable fs a b bs ws gs ia ea ib eb,
  ready creatable fs a -> ready creatable fs b -> fa_input b = fa_output a ->
  aget (fa_input a) fs = Some bs -> file_holds bs ws -> grouping (packets_at 0 ws) gs -> timed a -> untimed b ->
  numbers a ia ea -> numbers b ib eb -> some_apid ib eb ->
  exists ka kb, piped creatable fs a b (concat (map group_bytes ka)) (concat (map group_bytes kb)) /\
    kept (fun g => timely (fa_before a) (fa_after a) g /\ accepted ia ea (g_apid g)) gs ka /\
    kept (fun g => (timely (fa_before a) (fa_after a) g /\ accepted ia ea (g_apid g)) /\ accepted ib eb (g_apid g)) gs kb.
Proof.
  intros creatable fs a b bs ws gs ia ea ib eb RA RB F GI FH G TA [UB1 UB2] [IA EA] [IB EB] SB.
  destruct (RA) as (MA & CA & NA).
  destruct (C56_filter_command_times creatable fs a bs ws gs ia ea MA CA NA GI FH G IA EA TA) as (ka & fs1 & K & E1 & W1).
  destruct (ready_after _ _ _ _ _ _ W1 F RB) as (MB & CB & NB). destruct (groups_from _ _ _ _ _ FH G K) as [PK FW].
  destruct (written_holds _ FW) as (ws' & FK & SM). rewrite <- concat_groups_bytes in FK.
  assert (G1 : aget (fa_input b) fs1 = Some (concat (map group_bytes ka))) by (rewrite F; apply W1).
  destruct (C56_filter_command_apids creatable fs1 b _ ws' ib eb MB CB NB G1 FK IB EB SB UB1 UB2) as (kw & fs2 & K2 & E2 & W2).
  destruct (kept_exists _ (fun g => accepted ib eb (g_apid g)) (fun g => accepted_dec ib eb (g_apid g)) ka) as [kb KB].
  exists ka, kb. split; [|split; [exact K|apply (kept_twice _ _ _ _ _ _ K KB)]]. exists fs1, fs2. split; [exact E1|]. split; [exact E2|]. split; [exact W1|].
  assert (KP := kept_packets (accepted ib eb) (accepted_dec ib eb) ka kb PK KB).
  destruct (kept_rel _ _ is_wire (fun p => accepted ib eb (apid_of p)) (fun w => accepted ib eb (apid (w_header w))) ltac:(intros p w [E _]; unfold apid_of; rewrite E; reflexivity) _ _ KP ws'
    (same_wires _ _ _ SM (packets_wires ws' 0))) as (kw' & KW' & FR).
  assert (kw' = kw) by (eapply kept_det; eassumption). subst kw'. rewrite concat_groups_bytes, (wires_bytes _ _ FR). exact W2.
Qed.
Print Assumptions C94_time_then_apid.
(* ... which one command with all the options writes *)
Theorem C94_one_command : forall creatable fs a b c bs ws gs ia ea ib eb outa outb,
  ready creatable fs a -> ready creatable fs b -> fa_input b = fa_output a ->
  aget (fa_input a) fs = Some bs -> file_holds bs ws -> grouping (packets_at 0 ws) gs -> timed a -> untimed b ->
  numbers a ia ea -> (forall v, In v (ia ++ ea) -> 65536 <= v) -> numbers b ib eb -> some_apid ib eb ->
  ready creatable fs c -> fa_input c = fa_input a -> fa_before c = fa_before a -> fa_after c = fa_after a -> numbers c ib eb ->
  piped creatable fs a b outa outb ->
  exists fs', filter_command creatable fs c = Val (Success, fs') /\ only_written fs (fa_output c) outb fs'.
Proof.
  intros creatable fs a b c bs ws gs ia ea ib eb outa outb RA RB F GI FH G TA UB NA BIG NB SB RC IC BC AC [NI NE] P.
  destruct (C94_time_then_apid creatable fs a b bs ws gs ia ea ib eb RA RB F GI FH G TA UB NA NB SB) as (ka & kb & P' & _ & K).
  destruct RC as (MC & CC & NC). rewrite IC in NC.
  destruct (C56_filter_command_times creatable fs c bs ws gs ib eb MC CC ltac:(rewrite IC; exact NC) ltac:(rewrite IC; exact GI) FH G NI NE
    ltac:(unfold timed in TA; rewrite BC, AC; exact TA)) as (kc & fs' & KC & E & W).
  exists fs'. split; [exact E|]. replace outb with (concat (map group_bytes kc)); [exact W|].
  destruct P as (f1 & f2 & X1 & X2 & _ & [X3 _]), P' as (f1' & f2' & X1' & X2' & _ & [X3' _]).
  assert (f1' = f1) by congruence. subst f1'. assert (f2' = f2) by congruence. subst f2'. assert (outb = concat (map group_bytes kb)) as -> by congruence.
  do 2 f_equal. eapply kept_det; [|exact K]. eapply kept_ext; [|exact KC]. intros g I. rewrite BC, AC.
  assert (A : accepted ia ea (g_apid g)).
  { assert (B : g_apid g < 65536) by (destruct FH as (HW & _); eapply group_apid; eassumption).
    split; [left; intros v IV; apply BIG, in_app_iff; left; exact IV|]. intro IE. specialize (BIG _ (proj2 (in_app_iff _ _ _) (or_intror IE))). lia. }
  tauto.
Qed.
Print Assumptions C94_one_command.

Lemma one_apid_group : forall p ps a, sequence_flags (p_header p) <> 3 -> apid_of p = a -> Forall (fun q => apid_of q = a) ps ->
  grouping (p :: ps) [mkGroup a (p :: ps)].
Proof.
  intros p ps a F E H. subst a. rewrite <- (app_nil_r ps) at 1. constructor; [exact F|exact H|exact I|constructor].
Qed.
(* Apid options, then time options: if one apid is left and its first packet is segmented, then what is left is one group,
   whose time is that of this packet: all of it stays or nothing, whatever the times of the others *)
Theorem C94_apid_then_time_refuted : forall creatable fs a b bs ws ia ea ib eb x w k,
  ready creatable fs a -> ready creatable fs b -> fa_input b = fa_output a ->
  aget (fa_input a) fs = Some bs -> file_holds bs ws -> untimed a -> timed b ->
  numbers a ia ea -> some_apid ia ea -> numbers b ib eb -> accepted ib eb x ->
  kept (fun w => accepted ia ea (apid (w_header w))) ws (w :: k) ->
  Forall (fun w => apid (w_header w) = x) (w :: k) -> sequence_flags (w_header w) <> 3 ->
  let first := mkGroup x [mkPacket (w_header w) (wire_bytes w) 0] in
  (timely (fa_before b) (fa_after b) first -> piped creatable fs a b (concat (map wire_bytes (w :: k))) (concat (map wire_bytes (w :: k)))) /\
  (~ timely (fa_before b) (fa_after b) first -> piped creatable fs a b (concat (map wire_bytes (w :: k))) []).
Proof.
  intros creatable fs a b bs ws ia ea ib eb x w k RA RB F GI FH [UA1 UA2] TB [IA EA] SA [IB EB] AX K ALL FL first.
  destruct (RA) as (MA & CA & NA).
  destruct (C56_filter_command_apids creatable fs a bs ws ia ea MA CA NA GI FH IA EA SA UA1 UA2) as (ka & fs1 & K1 & E1 & W1).
  assert (ka = w :: k) by (eapply kept_det; eassumption). subst ka.
  destruct (ready_after _ _ _ _ _ _ W1 F RB) as (MB & CB & NB). assert (FK := kept_from _ _ _ _ FH K).
  assert (G1 : aget (fa_input b) fs1 = Some (concat (map wire_bytes (w :: k)))) by (rewrite F; apply W1).
  set (p := mkPacket (w_header w) (wire_bytes w) 0) in *. set (rest := packets_at (0 + length (wire_bytes w)) k).
  inversion ALL as [|? ? AW AK]; subst.
  assert (GR : grouping (packets_at 0 (w :: k)) [mkGroup (apid (w_header w)) (p :: rest)]).
  { apply one_apid_group; [exact FL|reflexivity|]. clear -AK. unfold rest. generalize (0 + length (wire_bytes w))%nat. revert AK. induction 1 as [|y k Y _ IH]; intro o; cbn [packets_at]; constructor; [exact Y|apply IH]. }
  destruct (C56_filter_command_times creatable fs1 b _ (w :: k) _ ib eb MB CB NB G1 FK GR IB EB TB) as (kb & fs2 & K2 & E2 & W2).
  assert (GB : group_bytes (mkGroup (apid (w_header w)) (p :: rest)) = concat (map wire_bytes (w :: k))).
  { unfold group_bytes. cbn [g_packets map concat p_data p]. unfold rest. rewrite packets_data. reflexivity. }
  split; intro T.
  - exists fs1, fs2. split; [exact E1|]. split; [exact E2|]. split; [exact W1|].
    assert (kb = [mkGroup (apid (w_header w)) (p :: rest)]).
    { eapply kept_det; [exact K2|]. apply kept_all. constructor; [|constructor]. split; [|exact AX]. apply (timely_first _ _ first (mkGroup (apid (w_header w)) (p :: rest)) p [] rest eq_refl eq_refl T). }
    subst kb. cbn [map concat] in W2. rewrite GB, app_nil_r in W2. exact W2.
  - exists fs1, fs2. split; [exact E1|]. split; [exact E2|]. split; [exact W1|].
    assert (kb = []). { eapply kept_det; [exact K2|]. apply kept_none. constructor; [|constructor]. intros [C _]. apply T. apply (timely_first _ _ (mkGroup (apid (w_header w)) (p :: rest)) first p rest [] eq_refl eq_refl C). }
    subst kb. exact W2.
Qed.
Print Assumptions C94_apid_then_time_refuted.

Lemma Forall2_in_r : forall A B (R : A -> B -> Prop) l l' y, Forall2 R l l' -> In y l' -> exists x, In x l /\ R x y.
Proof. induction 1 as [|x z l l' X F IH]; intros []; [subst; exists x; split; [left; reflexivity|exact X]|]. destruct (IH H) as (x' & I' & R'). exists x'. split; [right; exact I'|exact R']. Qed.
(* The same filter again changes nothing, with or without time options *)
Theorem C94_filter_twice : forall creatable fs a b bs ws ia ea,
  ready creatable fs a -> ready creatable fs b -> fa_input b = fa_output a ->
  aget (fa_input a) fs = Some bs -> file_holds bs ws -> numbers a ia ea -> timed a \/ some_apid ia ea ->
  fa_include b = fa_include a -> fa_exclude b = fa_exclude a -> fa_before b = fa_before a -> fa_after b = fa_after a ->
  exists out, piped creatable fs a b out out.
Proof.
  intros creatable fs a b bs ws ia ea RA RB F GI FH NA T EI EE EB EA.
  assert (NB : numbers b ia ea) by (unfold numbers in *; rewrite EI, EE; exact NA).
  assert (D : timed a \/ untimed a) by (unfold timed, untimed; destruct (fa_before a), (fa_after a); [left; left|left; left|left; right|right; split; reflexivity]; discriminate).
  destruct D as [TA|UA].
  - destruct (grouping_total (packets_at 0 ws)) as [gs G]. destruct (NA) as [IA XA]. destruct (NB) as [IB XB]. destruct (RA) as (MA & CA & N1).
    destruct (C56_filter_command_times creatable fs a bs ws gs ia ea MA CA N1 GI FH G IA XA TA) as (ka & fs1 & K & E1 & W1).
    destruct (ready_after _ _ _ _ _ _ W1 F RB) as (MB & CB & N2). destruct (groups_from _ _ _ _ _ FH G K) as [PK FW].
    destruct (written_holds _ FW) as (ws' & FK & SM). rewrite <- concat_groups_bytes in FK.
    assert (G1 : aget (fa_input b) fs1 = Some (concat (map group_bytes ka))) by (rewrite F; apply W1).
    destruct (regroup _ ka (le_n _) PK) as (gj & GJ & J). destruct (grouping_same _ _ GJ _ SM) as (g2 & G2 & S2).
    destruct (C56_filter_command_times creatable fs1 b _ ws' g2 ia ea MB CB N2 G1 FK G2 IB XB ltac:(unfold timed in TA; rewrite EB, EA; exact TA)) as (kb & fs2 & K2 & E2 & W2).
    exists (concat (map group_bytes ka)). exists fs1, fs2. split; [exact E1|]. split; [exact E2|]. split; [exact W1|].
    assert (ALL : Forall (fun g => timely (fa_before b) (fa_after b) g /\ accepted ia ea (g_apid g)) g2).
    { rewrite EB, EA. assert (S := kept_sat _ _ _ _ K). cbv beta in S.
      assert (JS := joins_starts (fun x f => timely (fa_before a) (fa_after a) (mkGroup x [f]) /\ accepted ia ea x) _ _ J PK).
      apply Forall_forall. intros g IG. destruct (Forall2_in_r _ _ _ _ _ _ S2 IG) as (h & IH & SH).
      assert (JS' : Forall (fun g => exists f rest, g_packets g = f :: rest /\ (timely (fa_before a) (fa_after a) (mkGroup (g_apid g) [f]) /\ accepted ia ea (g_apid g))) gj).
      { apply JS. eapply Forall_impl; [|exact S]. intros q [TQ AQ]. destruct (TQ) as (f & rest & t & EQ & _). exists f, rest. split; [exact EQ|]. split; [|exact AQ]. apply (timely_first _ _ q (mkGroup (g_apid q) [f]) f rest [] EQ eq_refl TQ). }
      rewrite Forall_forall in JS'. destruct (JS' h IH) as (f & rest & EH & TH & AH).
      split; [eapply timely_same; [exact SH|apply (timely_first _ _ (mkGroup (g_apid h) [f]) h f [] rest eq_refl EH TH)]|]. destruct SH as [<- _]. exact AH. }
    assert (kb = g2) by (eapply kept_det; [exact K2|apply kept_all; exact ALL]). subst kb.
    rewrite <- (same_group_bytes _ _ S2), (joins_bytes _ _ J) in W2. exact W2.
  - assert (SA : some_apid ia ea).
    { destruct T as [T|T]; [|exact T]. exfalso. unfold timed, untimed in *. destruct UA, T; contradiction. }
    destruct (C94_apid_filters creatable fs a b bs ws ia ea ia ea RA RB F GI FH UA ltac:(unfold untimed in *; rewrite EB, EA; exact UA) NA SA NB SA) as (ka & kb & P & K1 & K2).
    assert (kb = ka). { eapply kept_det; [|exact K1]. eapply kept_iff; [|exact K2]. intro y. cbn. tauto. }
    subst kb. exists (concat (map wire_bytes ka)). exact P.
Qed.
Print Assumptions C94_filter_twice.

(* ---- merging ---- *)
Lemma file_holds_wires : forall bs ws, file_holds bs ws -> Forall wire_ok ws /\ Forall (fun w => N.of_nat (length (wire_bytes w)) <= 65536) ws.
Proof. intros bs ws (A & B & _). auto. Qed.
Lemma selected_written : forall fs m ws sel, readable fs m ws -> Forall (eligible m ws) sel ->
  Forall proper sel /\ exists ws', file_holds (concat (map group_bytes sel)) ws' /\ Forall2 same (concat (map g_packets sel)) (packets_at 0 ws').
Proof.
  intros fs m ws sel R E. assert (A : Forall (fun g => proper g /\ Forall from_wire (g_packets g)) sel).
  { eapply Forall_impl; [|exact E]. intros g G. eapply eligible_from; eassumption. }
  split; [eapply Forall_impl; [|exact A]; cbn; tauto|]. rewrite concat_groups_bytes. apply written_holds.
  rewrite Forall_concat, Forall_map. eapply Forall_impl; [|exact A]. cbn. tauto.
Qed.

(* Merging a merged file again, with the same settings, gives the same bytes *)
Theorem C94_merge_again : forall h h' fs fs' m ws out p, hash_ok h -> hash_ok h' -> readable fs m ws ->
  place_free (mg_time m) -> no_ties m ws -> merge h fs m = Val (Ok out) -> fs' p = Some out ->
  merge h' fs' (on_paths m [p]) = Val (Ok out).
Proof.
  intros h h' fs fs' m ws out p H H' R PF NT E FP. destruct (main_sorted h fs m ws H R NT) as (sel & E' & EL & _ & ST).
  assert (out = concat (map group_bytes sel)) by congruence. subst out. clear E E'.
  destruct (selected_written _ _ _ _ R EL) as (PR & ws' & FH & SM). destruct (regroup _ sel (le_n _) PR) as (gj & GJ & J).
  destruct (grouping_same _ _ GJ _ SM) as (g2 & G2 & S2).
  rewrite <- (joins_bytes _ _ J). apply merge_unique with (ws := fun _ => ws').
  - exact H'.
  - intros q [<-|[]]. eauto.
  - intros g G. apply eligible_fit in G. destruct G as (q & gs & f & rest & _ & G & I & _). rewrite (grouping_det _ _ _ G G2) in I.
    destruct (Forall2_in_r _ _ _ _ _ _ S2 I) as (g0 & I0 & SG). exists g0. split; [exact I0|]. rewrite !gkey_on. split; [apply same_gkey; assumption|apply same_group_bytes1; exact SG].
  - intros g0 I0. destruct (Forall2_in_l _ _ _ _ _ _ S2 I0) as (g & I & SG). exists g. split; [|rewrite !gkey_on; symmetry; apply same_gkey; assumption].
    assert (JS := joins_starts (fun _ f => fit m f) _ _ J PR). assert (JS' : Forall (fun g => exists f rest, g_packets g = f :: rest /\ fit m f) gj).
    { apply JS. eapply Forall_impl; [|exact EL]. intros x X. apply eligible_fit in X. destruct X as (_ & _ & f & rest & _ & _ & _ & X & Y). exists f, rest. auto. }
    rewrite Forall_forall in JS'. destruct (JS' g0 I0) as (f & rest & EG & FT). destruct (SG) as [_ FS]. rewrite EG in FS. inversion FS as [|? f' ? rest' SF FR E1 E2].
    apply eligible_fit. exists p, g2, f', rest'. split; [left; reflexivity|]. split; [exact G2|]. split; [exact I|]. split; [symmetry; exact E2|]. apply fit_on. eapply same_fit; eassumption.
  - replace (map (gt (on_paths m [p])) gj) with (map (gt m) gj) by reflexivity. eapply joins_sorted; eassumption.
Qed.
Print Assumptions C94_merge_again.

Lemma standalone_grouping : forall sel, Forall (fun g => exists p, g = mkGroup (apid_of p) [p] /\ sequence_flags (p_header p) = 3) sel -> grouping (concat (map g_packets sel)) sel.
Proof. induction 1 as [|g sel (p & -> & F) _ IH]; cbn [map concat g_packets app]; constructor; assumption. Qed.
Lemma standalone_groups : forall ps gs, Forall (fun p => sequence_flags (p_header p) = 3) ps -> grouping ps gs ->
  Forall (fun g => exists p, g = mkGroup (apid_of p) [p] /\ sequence_flags (p_header p) = 3) gs.
Proof.
  intros ps gs H G. induction G as [|p ps gs F G IH|p run rest gs F R N G IH]; [constructor| |].
  - inversion H; subst. constructor; [exists p; auto|auto].
  - inversion H; contradiction.
Qed.
Lemma packets_at_flags : forall ws off, Forall (fun w => sequence_flags (w_header w) = 3) ws -> Forall (fun p => sequence_flags (p_header p) = 3) (packets_at off ws).
Proof. intros ws off H. revert off. induction H as [|w ws X H IH]; intro off; cbn [packets_at]; constructor; [exact X|apply IH]. Qed.

(* Merging in steps: the merged output of some files, merged with more files, is what merging all at once gives, when the
   packets of the files merged first are all standalone *)
Theorem C94_merge_in_steps : forall h h' h'' fs fs' m A B ws out q, hash_ok h -> hash_ok h' -> hash_ok h'' ->
  readable fs (on_paths m (A ++ B)) ws -> place_free (mg_time m) -> no_ties (on_paths m (A ++ B)) ws ->
  (forall p, In p A -> Forall (fun w => sequence_flags (w_header w) = 3) (ws p)) ->
  merge h fs (on_paths m A) = Val (Ok out) -> fs' q = Some out -> ~ In q B -> (forall p, In p B -> fs' p = fs p) ->
  merge h' fs' (on_paths m (q :: B)) = merge h'' fs (on_paths m (A ++ B)).
Proof.
  intros h h' h'' fs fs' m A B ws out q H H' H'' R PF NT SA E FQ NQ FB.
  assert (RA : readable fs (on_paths m A) ws) by (intros p I; apply R; apply in_app_iff; left; exact I).
  assert (UP : forall g, eligible (on_paths m A) ws g -> eligible (on_paths m (A ++ B)) ws g) by (intro; apply eligible_on; intros; apply in_app_iff; left; assumption).
  assert (NA : no_ties (on_paths m A) ws). { intros g g' t a s a' s' G G'. apply (NT g g' t a s a' s' (UP _ G) (UP _ G')). }
  destruct (main_sorted h fs _ ws H RA NA) as (sel & E' & EL & CA & ST). assert (out = concat (map group_bytes sel)) by congruence. subst out. clear E E'.
  destruct (main_sorted h'' fs _ ws H'' R NT) as (all & -> & ELA & CALL & STA).
  destruct (selected_written _ _ _ _ RA EL) as (PR & ws' & FH & SM).
  assert (G1 : grouping (concat (map g_packets sel)) sel).
  { apply standalone_grouping. eapply Forall_impl; [|exact EL]. intros g G. apply eligible_fit in G. destruct G as (p & gs & f & rest & I & G & IG & _).
    assert (X := standalone_groups _ _ (packets_at_flags _ 0 (SA p I)) G). rewrite Forall_forall in X. exact (X g IG). }
  destruct (grouping_same _ _ G1 _ SM) as (g2 & G2 & S2).
  set (w2 := fun p => if p =? q then ws' else ws p). assert (W2 : w2 q = ws') by (unfold w2; rewrite N.eqb_refl; reflexivity).
  assert (WB : forall p, In p B -> w2 p = ws p) by (intros p I; unfold w2; destruct (N.eqb_spec p q); [congruence|reflexivity]).
  apply merge_unique with (ws := w2).
  - exact H'.
  - intros p [<-|I]; [rewrite W2; eauto|]. rewrite (WB p I), (FB p I). apply R. apply in_app_iff. right. exact I.
  - intros g G. apply eligible_fit in G. destruct G as (p & gs & f & rest & [<-|IP] & G & I & EG & FT).
    + rewrite W2 in G. rewrite (grouping_det _ _ _ G G2) in I. destruct (Forall2_in_r _ _ _ _ _ _ S2 I) as (g1 & I1 & SG).
      rewrite Forall_forall in EL. destruct (CALL g1 (UP _ (EL g1 I1))) as (g0 & I0 & K0 & B0). exists g0. split; [exact I0|].
      rewrite <- (same_group_bytes1 _ _ SG). split; [|exact B0]. rewrite !gkey_on in *. rewrite <- (same_gkey m _ _ PF SG). exact K0.
    + apply CALL. apply eligible_fit. rewrite (WB p IP) in G. exists p, gs, f, rest. split; [apply in_app_iff; right; exact IP|]. auto.
  - intros g0 I0. rewrite Forall_forall in ELA. assert (G := ELA g0 I0). apply eligible_fit in G. destruct G as (p & gs & f & rest & IP & G & I & EG & FT).
    apply in_app_iff in IP. destruct IP as [IP|IP].
    + destruct (CA g0) as (g1 & I1 & K1 & _); [apply eligible_fit; exists p, gs, f, rest; auto|]. destruct (Forall2_in_l _ _ _ _ _ _ S2 I1) as (g & Ig & SG).
      exists g. split; [|rewrite !gkey_on in *; rewrite <- (same_gkey m _ _ PF SG); exact K1]. rewrite Forall_forall in EL. assert (X := EL g1 I1). apply eligible_fit in X.
      destruct X as (_ & _ & f1 & r1 & _ & _ & _ & E1 & F1). destruct (SG) as [_ FS]. rewrite E1 in FS. inversion FS as [|? f' ? rest' SF FR EE1 E2].
      apply eligible_fit. exists q, g2, f', rest'. split; [left; reflexivity|]. split; [rewrite W2; exact G2|]. split; [exact Ig|]. split; [symmetry; exact E2|]. apply fit_on. eapply same_fit; [exact PF|exact SF|exact F1].
    + exists g0. split; [|reflexivity]. apply eligible_fit. exists p, gs, f, rest. rewrite (WB p IP). split; [right; exact IP|]. auto.
  - exact STA.
Qed.
Print Assumptions C94_merge_in_steps.

Lemma wires_file : forall ws, Forall wire_ok ws -> Forall (fun w => N.of_nat (length (wire_bytes w)) <= 65536) ws -> file_holds (concat (map wire_bytes ws)) ws.
Proof.
  intros ws W L. split; [exact W|]. split; [exact L|]. exists []. rewrite app_nil_r. split; [reflexivity|]. split; [constructor|]. split; [apply incomplete_nil|cbn; lia].
Qed.
Lemma run_grouping : forall w k a, sequence_flags (w_header w) = 1 -> Forall (fun w => apid (w_header w) = a) (w :: k) ->
  grouping (packets_at 0 (w :: k)) [mkGroup a (packets_at 0 (w :: k))].
Proof.
  intros w k a F H. inversion H as [|? ? HW HK]; subst. cbn [packets_at]. apply one_apid_group; [cbn [p_header]; rewrite F; discriminate|reflexivity|].
  clear H. generalize (0 + length (wire_bytes w))%nat. revert HK. induction 1 as [|y k Y _ IH]; intro o; cbn [packets_at]; constructor; [exact Y|apply IH].
Qed.
(* With segmented packets, not: two groups of one apid next to each other are read back as one group, so that the second is
   no longer seen to be the one in another file, and its packets are written twice *)
Theorem C94_merge_in_steps_refuted : forall h h' h'' fs fs' m a w1 k1 w2 k2 t1 t2 p1 p2 p3 q, hash_ok h -> hash_ok h' -> hash_ok h'' ->
  place_free (mg_time m) -> Forall wire_ok (w1 :: k1 ++ w2 :: k2) -> Forall (fun w => N.of_nat (length (wire_bytes w)) <= 65536) (w1 :: k1 ++ w2 :: k2) ->
  Forall (fun w => apid (w_header w) = a) (w1 :: k1 ++ w2 :: k2) -> sequence_flags (w_header w1) = 1 -> sequence_flags (w_header w2) = 1 ->
  mg_time m (mkPacket (w_header w1) (wire_bytes w1) 0) = Some t1 -> mg_time m (mkPacket (w_header w2) (wire_bytes w2) 0) = Some t2 ->
  (t1 < t2)%Z -> within m t1 -> within m t2 -> requested m a ->
  let one := concat (map wire_bytes (w1 :: k1)) in let two := concat (map wire_bytes (w2 :: k2)) in
  fs p1 = Some one -> fs p2 = Some two -> fs p3 = Some two -> fs' q = Some (one ++ two) -> fs' p3 = Some two -> p1 <> p2 -> p1 <> p3 -> q <> p3 ->
  merge h fs (on_paths m [p1; p2]) = Val (Ok (one ++ two)) /\
  merge h' fs (on_paths m [p1; p2; p3]) = Val (Ok (one ++ two)) /\
  merge h'' fs' (on_paths m [q; p3]) = Val (Ok (one ++ two ++ two)).
Proof.
  intros h h' h'' fs fs' m a w1 k1 w2 k2 t1 t2 p1 p2 p3 q H H' H'' PF W L A F1 F2 T1 T2 LT I1 I2 RQ one two Q1 Q2 Q3 QQ Q3' N12 N13 NQ.
  change (w1 :: k1 ++ w2 :: k2) with ((w1 :: k1) ++ (w2 :: k2)) in *.
  assert (G12 : grouping (packets_at 0 ((w1 :: k1) ++ (w2 :: k2))) [mkGroup a (packets_at 0 ((w1 :: k1) ++ (w2 :: k2)))]) by (apply (run_grouping w1 (k1 ++ w2 :: k2)); assumption).
  assert (FH12 := wires_file _ W L). rewrite map_app, concat_app in FH12. fold one two in FH12.
  apply Forall_app in W, L, A. destruct W as [W1 W2], L as [L1 L2], A as [A1 A2].
  assert (G1 := run_grouping w1 k1 a F1 A1). assert (G2 := run_grouping w2 k2 a F2 A2).
  assert (FH1 := wires_file _ W1 L1). assert (FH2 := wires_file _ W2 L2). fold one in FH1. fold two in FH2.
  set (g1 := mkGroup a (packets_at 0 (w1 :: k1))) in *. set (g2 := mkGroup a (packets_at 0 (w2 :: k2))) in *. set (g12 := mkGroup a (packets_at 0 ((w1 :: k1) ++ (w2 :: k2)))) in *.
  assert (AW1 : apid (w_header w1) = a) by (inversion A1; assumption). assert (AW2 : apid (w_header w2) = a) by (inversion A2; assumption).
  assert (K1 : gkey m g1 = Some (t1, a, sequence_id (w_header w1))) by (unfold gkey; cbn [g1 g_packets packets_at]; rewrite T1; unfold apid_of, seq; cbn [p_header]; rewrite AW1; reflexivity).
  assert (K2 : gkey m g2 = Some (t2, a, sequence_id (w_header w2))) by (unfold gkey; cbn [g2 g_packets packets_at]; rewrite T2; unfold apid_of, seq; cbn [p_header]; rewrite AW2; reflexivity).
  assert (K12 : gkey m g12 = Some (t1, a, sequence_id (w_header w1))) by (unfold gkey; cbn [g12 g_packets packets_at app]; rewrite T1; unfold apid_of, seq; cbn [p_header]; rewrite AW1; reflexivity).
  assert (FT1 : fit m (mkPacket (w_header w1) (wire_bytes w1) 0)) by (split; [left; exact F1|exists t1; unfold apid_of; cbn [p_header]; rewrite AW1; auto]).
  assert (FT2 : fit m (mkPacket (w_header w2) (wire_bytes w2) 0)) by (split; [left; exact F2|exists t2; unfold apid_of; cbn [p_header]; rewrite AW2; auto]).
  assert (B1 : group_bytes g1 = one) by (unfold group_bytes; cbn [g1 g_packets]; apply packets_data).
  assert (B2 : group_bytes g2 = two) by (unfold group_bytes; cbn [g2 g_packets]; apply packets_data).
  assert (B12 : group_bytes g12 = one ++ two) by (unfold group_bytes; cbn [g12 g_packets]; rewrite packets_data, map_app, concat_app; reflexivity).
  set (ws := fun p => if p =? p1 then w1 :: k1 else w2 :: k2).
  assert (X1 : ws p1 = w1 :: k1) by (unfold ws; rewrite N.eqb_refl; reflexivity).
  assert (X2 : ws p2 = w2 :: k2) by (unfold ws; destruct (N.eqb_spec p2 p1); congruence).
  assert (X3 : ws p3 = w2 :: k2) by (unfold ws; destruct (N.eqb_spec p3 p1); congruence).
  assert (SRT : forall g g', gkey m g = Some (t1, a, sequence_id (w_header w1)) -> gkey m g' = Some (t2, a, sequence_id (w_header w2)) ->
    forall paths, StronglySorted zlt (map (gt (on_paths m paths)) [g; g'])).
  { intros g g' K K' paths. cbn [map]. rewrite !gt_on. unfold gt. rewrite K, K'. constructor; [constructor; constructor|constructor; [left; exact LT|constructor]]. }
  assert (AB : forall (h : hash_order) paths, hash_ok h -> incl [p1; p2] paths -> incl paths [p1; p2; p3] -> merge h fs (on_paths m paths) = Val (Ok (one ++ two))).
  { intros h0 paths HH SUP SUB. replace (one ++ two) with (concat (map group_bytes [g1; g2])) by (cbn [map concat]; rewrite B1, B2, app_nil_r; reflexivity).
    apply merge_unique with (ws := ws); [exact HH| | | |apply SRT; assumption].
    - intros p I. destruct (SUB p I) as [<-|[<-|[<-|[]]]]; [rewrite X1|rewrite X2|rewrite X3]; eauto.
    - intros g G. apply eligible_fit in G. destruct G as (p & gs & f & rest & I & G & Ig & _). destruct (SUB p I) as [<-|[<-|[<-|[]]]].
      + rewrite X1 in G. rewrite (grouping_det _ _ _ G G1) in Ig. destruct Ig as [<-|[]]. exists g1. split; [left; reflexivity|]. auto.
      + rewrite X2 in G. rewrite (grouping_det _ _ _ G G2) in Ig. destruct Ig as [<-|[]]. exists g2. split; [right; left; reflexivity|]. auto.
      + rewrite X3 in G. rewrite (grouping_det _ _ _ G G2) in Ig. destruct Ig as [<-|[]]. exists g2. split; [right; left; reflexivity|]. auto.
    - intros g0 I0. exists g0. split; [|reflexivity]. apply eligible_fit. destruct I0 as [<-|[<-|[]]].
      + exists p1, [g1]. do 2 eexists. split; [apply SUP; left; reflexivity|]. rewrite X1. split; [exact G1|]. split; [left; reflexivity|]. split; [reflexivity|exact FT1].
      + exists p2, [g2]. do 2 eexists. split; [apply SUP; right; left; reflexivity|]. rewrite X2. split; [exact G2|]. split; [left; reflexivity|]. split; [reflexivity|exact FT2]. }
  split; [apply AB; [exact H|intros x X; exact X|intros x [<-|[<-|[]]]; [left|right; left]; reflexivity]|].
  split; [apply AB; [exact H'|intros x [<-|[<-|[]]]; [left|right; left]; reflexivity|intros x X; exact X]|].
  replace (one ++ two ++ two) with (concat (map group_bytes [g12; g2])) by (cbn [map concat]; rewrite B12, B2, app_nil_r, app_assoc; reflexivity).
  set (ws2 := fun p => if p =? q then (w1 :: k1) ++ (w2 :: k2) else w2 :: k2).
  assert (Y1 : ws2 q = (w1 :: k1) ++ (w2 :: k2)) by (unfold ws2; rewrite N.eqb_refl; reflexivity).
  assert (Y2 : ws2 p3 = w2 :: k2) by (unfold ws2; destruct (N.eqb_spec p3 q); congruence).
  apply merge_unique with (ws := ws2); [exact H''| | | |apply SRT; assumption].
  - intros p [<-|[<-|[]]]; [rewrite Y1|rewrite Y2]; eauto.
  - intros g G. apply eligible_fit in G. destruct G as (p & gs & f & rest & I & G & Ig & _). destruct I as [<-|[<-|[]]].
    + rewrite Y1 in G. rewrite (grouping_det _ _ _ G G12) in Ig. destruct Ig as [<-|[]]. exists g12. split; [left; reflexivity|]. auto.
    + rewrite Y2 in G. rewrite (grouping_det _ _ _ G G2) in Ig. destruct Ig as [<-|[]]. exists g2. split; [right; left; reflexivity|]. auto.
  - intros g0 I0. exists g0. split; [|reflexivity]. apply eligible_fit. destruct I0 as [<-|[<-|[]]].
    + exists q, [g12]. do 2 eexists. split; [left; reflexivity|]. rewrite Y1. split; [exact G12|]. split; [left; reflexivity|]. split; [reflexivity|exact FT1].
    + exists p3, [g2]. do 2 eexists. split; [right; left; reflexivity|]. rewrite Y2. split; [exact G2|]. split; [left; reflexivity|]. split; [reflexivity|exact FT2].
Qed.
Print Assumptions C94_merge_in_steps_refuted.

(* ---- cases that meet the hypotheses ---- *)
(* two segmented groups of apid 7, on days 22000 and 22001, with a packet of apid 8 between them *)
Definition cp_ws : list wire_packet := [mg_wire 7 1 0 22000 [1]; mg_wire 7 2 1 22000 []; mg_wire 8 3 0 22000 [9]; mg_wire 7 1 2 22001 [2]; mg_wire 7 2 3 22001 []].
Definition cp_day2 : list N := concat (map wire_bytes [mg_wire 7 1 2 22001 [2]; mg_wire 7 2 3 22001 []]).
Definition cp_fs : fsys := [(1, concat (map wire_bytes cp_ws))].
Definition cp_apid (input output : N) : filter_args := mkFilterArgs [[55]] [] None None false output input.
Definition cp_time (input output : N) : filter_args := mkFilterArgs [] [] None (Some 3731184000000000000%Z) false output input.
Definition cp_both : filter_args := mkFilterArgs [[55]] [] None (Some 3731184000000000000%Z) false 9 1.
Lemma cp_ready : forall x y, ready (fun _ => true) cp_fs (cp_apid x y) <-> y <> 1 /\ x <> y.
Proof.
  intros x y. unfold ready, may_write, cp_fs. cbn [fa_clobber fa_output fa_input cp_apid aget]. destruct (N.eqb_spec y 1).
  - split; [intros ([C|C] & _); discriminate|tauto].
  - split; [intros (_ & _ & C); auto|intros (_ & C); auto].
Qed.
Lemma cp_numbers : stands_for [[55]] [7] /\ stands_for [] [] /\ some_apid [7] [].
Proof.
  split; [|split].
  - apply C50_parse_number_ranges. vm_compute. reflexivity.
  - apply C50_parse_number_ranges. vm_compute. reflexivity.
  - exists 7. split; [left; reflexivity|lia].
Qed.
Lemma cp_file : file_holds (concat (map wire_bytes cp_ws)) cp_ws.
Proof. apply wires_file; [repeat constructor|repeat constructor; vm_compute; discriminate]. Qed.
Example C94_ex_ready : ready (fun _ => true) cp_fs (cp_apid 1 2) /\ ready (fun _ => true) cp_fs (cp_apid 2 3) /\ numbers (cp_apid 1 2) [7] [] /\
  numbers (cp_time 1 2) [] [] /\ timed (cp_time 2 3) /\ untimed (cp_apid 1 2) /\ aget 1 cp_fs = Some (concat (map wire_bytes cp_ws)).
Proof.
  destruct cp_numbers as (A & B & _). rewrite !cp_ready. repeat split; try discriminate; try exact A; try exact B. right. discriminate.
Qed.
(* times first, then apids: the second day; both at once: the same; apids first: nothing *)
Example C94_ex : piped (fun _ => true) cp_fs (cp_time 1 2) (cp_apid 2 3) cp_day2 cp_day2 /\
  (exists fs', filter_command (fun _ => true) cp_fs cp_both = Val (Success, fs') /\ aget 9 fs' = Some cp_day2) /\
  piped (fun _ => true) cp_fs (cp_apid 1 2) (cp_time 2 3) (concat (map wire_bytes [mg_wire 7 1 0 22000 [1]; mg_wire 7 2 1 22000 []; mg_wire 7 1 2 22001 [2]; mg_wire 7 2 3 22001 []])) [] /\
  exists out, piped (fun _ => true) cp_fs (cp_apid 1 2) (cp_apid 2 3) out out /\ out <> [].
Proof.
  assert (OW : forall fs fs' p c, fs' = aset p c (aset p [] fs) -> only_written fs p c fs') by (intros; subst; apply only_written_aset2).
  split; [|split; [|split]].
  - do 2 eexists. split; [vm_compute; reflexivity|]. split; [vm_compute; reflexivity|]. split; apply OW; vm_compute; reflexivity.
  - eexists. split; vm_compute; reflexivity.
  - do 2 eexists. split; [vm_compute; reflexivity|]. split; [vm_compute; reflexivity|]. split; apply OW; vm_compute; reflexivity.
  - destruct (C94_filter_twice (fun _ => true) cp_fs (cp_apid 1 2) (cp_apid 2 3) (concat (map wire_bytes cp_ws)) cp_ws [7] []) as [out P]; try reflexivity.
    + apply cp_ready. split; discriminate.
    + apply cp_ready. split; discriminate.
    + exact cp_file.
    + split; apply cp_numbers.
    + right. apply cp_numbers.
    + exists out. split; [exact P|]. intros ->. destruct P as (f1 & f2 & E1 & _ & [W1 _] & _). vm_compute in E1. injection E1 as <-. vm_compute in W1. discriminate.
Qed.
(* merging: mg_fs of P_Merge.v; then two groups of one apid in two files, the second again in a third *)
Lemma cds_place_free : place_free cds_time. Proof. intros h d o o'. reflexivity. Qed.
Definition st_ws (p : N) : list wire_packet :=
  if p =? 0 then [mg_wire 821 3 7 22000 [1]; mg_wire 826 3 4 22000 [2]] else [mg_wire 821 3 7 22000 [1]; mg_wire 900 1 9 21999 [3]; mg_wire 900 2 10 21999 [4]].
Definition st_fs (p : N) : option (list N) := Some (concat (map wire_bytes (st_ws p))).
Definition st_m : merger := merger_new [0; 1] cds_time.
Lemma st_readable : forall paths, readable st_fs (on_paths st_m paths) st_ws.
Proof.
  intros paths p _. eexists. split; [reflexivity|]. unfold st_ws. destruct (p =? 0); (apply wires_file; [repeat constructor|repeat constructor; vm_compute; discriminate]).
Qed.
Lemma st_groups : forall p gs, grouping (packets_at 0 (st_ws p)) gs -> gs = fst (run giter_next 9%nat (giter_new (packets_at 0 (st_ws p)))).
Proof.
  intros p gs G. apply groups_exact in G. eapply yields_det; [exact G|]. apply run_yields with (fuel := 9%nat).
  unfold st_ws. destruct (p =? 0); vm_compute; reflexivity.
Qed.
Lemma st_no_ties : forall paths, no_ties (on_paths st_m paths) st_ws.
Proof.
  intro paths. set (keys := [(Some (3731011200000000000%Z, 900, 9)); Some (3731097600000000000%Z, 821, 7); Some (3731097600000000000%Z, 826, 4)]).
  assert (K : forall g, eligible (on_paths st_m paths) st_ws g -> exists i, nth_error keys i = Some (gkey st_m g) /\
    nth_error [wire_bytes (mg_wire 900 1 9 21999 [3]) ++ wire_bytes (mg_wire 900 2 10 21999 [4]); wire_bytes (mg_wire 821 3 7 22000 [1]); wire_bytes (mg_wire 826 3 4 22000 [2])] i = Some (group_bytes g)).
  { intros g (p & gs & f & rest & t & _ & G & I & E & F & T & _). apply st_groups in G. subst gs. unfold st_ws in I. destruct (p =? 0).
    - destruct I as [<-|[<-|[]]]; [exists 1%nat|exists 2%nat]; split; vm_compute; reflexivity.
    - destruct I as [<-|[<-|[]]]; [exists 1%nat|exists 0%nat]; split; vm_compute; reflexivity. }
  intros g g' t a s a' s' E E' KG KG' O. destruct (K g E) as (i & A & B). destruct (K g' E') as (j & A' & B').
  rewrite gkey_on in KG, KG'. rewrite KG in A. rewrite KG' in A'. unfold keys in A, A'.
  destruct i as [|[|[|i]]]; cbn [nth_error] in A, B; [..|destruct i; discriminate];
  destruct j as [|[|[|j]]]; cbn [nth_error] in A', B'; try (destruct j; discriminate);
  inversion A; inversion A'; subst; try discriminate; try (vm_compute in O; discriminate);
  (split; [reflexivity|]; split; [reflexivity|congruence]).
Qed.
Definition st_out : list N := concat (map wire_bytes [mg_wire 900 1 9 21999 [3]; mg_wire 900 2 10 21999 [4]; mg_wire 821 3 7 22000 [1]; mg_wire 826 3 4 22000 [2]]).
Example C94_merge_ex :
  merge in_order st_fs (on_paths st_m [0; 1]) = Val (Ok st_out) /\
  merge reversed (fun _ => Some st_out) (on_paths st_m [5]) = Val (Ok st_out) /\
  exists out, merge in_order st_fs (on_paths st_m [0]) = Val (Ok out) /\
    merge reversed (fun p => if p =? 5 then Some out else st_fs p) (on_paths st_m [5; 1]) = Val (Ok st_out).
Proof.
  assert (E : merge in_order st_fs (on_paths st_m [0; 1]) = Val (Ok st_out)) by (vm_compute; reflexivity). split; [exact E|]. split.
  - apply (C94_merge_again in_order reversed st_fs (fun _ => Some st_out) (on_paths st_m [0; 1]) st_ws st_out 5);
      [exact in_order_ok|exact reversed_ok|apply st_readable|exact cds_place_free|apply st_no_ties|exact E|reflexivity].
  - eexists. split; [vm_compute; reflexivity|]. rewrite <- E. eapply (C94_merge_in_steps in_order reversed in_order st_fs _ st_m [0] [1] st_ws);
      [exact in_order_ok|exact reversed_ok|exact in_order_ok|apply st_readable|exact cds_place_free|apply st_no_ties| |vm_compute; reflexivity|reflexivity| |].
    + intros p [<-|[]]. repeat constructor.
    + intros [C|[]]. discriminate.
    + intros p [<-|[]]. reflexivity.
Qed.
(* two groups of apid 900 in files 0 and 1, the second also in file 2 *)
Example C94_steps_ex : let one := wire_bytes (mg_wire 900 1 9 21999 [3]) ++ wire_bytes (mg_wire 900 2 10 21999 [4]) in let two := wire_bytes (mg_wire 900 1 11 22000 [5]) in
  let fs := fun p => if p =? 0 then Some one else if p =? 5 then Some (one ++ two) else Some two in
  merge in_order fs (on_paths st_m [0; 1]) = Val (Ok (one ++ two)) /\
  merge reversed fs (on_paths st_m [0; 1; 2]) = Val (Ok (one ++ two)) /\
  merge in_order fs (on_paths st_m [5; 2]) = Val (Ok (one ++ two ++ two)).
Proof.
  pose (w1 := mg_wire 900 1 9 21999 [3]). pose (w1' := mg_wire 900 2 10 21999 [4]). pose (w2 := mg_wire 900 1 11 22000 [5]). intros one two fs.
  apply (C94_merge_in_steps_refuted in_order reversed in_order fs fs st_m 900 w1 [w1'] w2 [] 3731011200000000000%Z 3731097600000000000%Z 0 1 2 5);
    try reflexivity; try discriminate; try exact in_order_ok; try exact reversed_ok; try exact cds_place_free; try (vm_compute; reflexivity).
  - repeat constructor.
  - repeat constructor; vm_compute; discriminate.
  - repeat constructor.
  - split; vm_compute; [discriminate|reflexivity].
  - split; vm_compute; [discriminate|reflexivity].
Qed.
