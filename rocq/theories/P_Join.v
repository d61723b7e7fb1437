(* Property C104: recordings written one after the other *)
From Coq Require Import Permutation Sorted.
From Verif Require Import Base S_Bits M_Reader M_Packet M_Group S_Packet S_Group M_Timecode L_Base L_Bits L_Reader L_Packet L_Group M_Merge S_Merge L_Merge P_Merge
  M_Cli S_Cli P_CliFilter P_CliInfo S_InfoTotals M_Main S_Main P_Main P_CliDiff2 P_LiveCmd S_Compose L_Compose P_Compose S_Order P_Order S_FramePackets S_Join.
Open Scope nat_scope.

(* ---- packets ---- *)
Definition up (n : nat) (s : ptok) : ptok := mkPtok (pk_toks s) (pk_fin s) (n + pk_off s).
Definition up_out (n : nat) (o : option (result packet)) : option (result packet) := option_map (later_item n) o.
Lemma ptok_up : forall n s, ptok_next (up n s) = match ptok_next s with Val (o, s') => Val (up_out n o, up n s') | Panic => Panic end.
Proof.
  intros n s. unfold ptok_next, up. cbn [pk_toks pk_fin pk_off].
  destruct (re_tok 6 (pk_toks s) (pk_fin s)) as [[hd st] ts]. destruct st as [k|]; [destruct k; reflexivity|].
  destruct (wire_len hd <=? MAX_LEN); [|reflexivity].
  destruct (re_tok _ ts (pk_fin s)) as [[body st2] ts2]. destruct st2 as [k|]; [destruct k; reflexivity|].
  rewrite <- Nat.add_assoc. reflexivity.
Qed.
Lemma yields_up : forall n s l, yields ptok_next s l -> yields ptok_next (up n s) (map (later_item n) l).
Proof.
  intros n s l H. induction H as [s s' E|s s' a l E H IH]; cbn [map].
  - eapply yields_nil. rewrite ptok_up, E. reflexivity.
  - eapply yields_cons; [rewrite ptok_up, E; reflexivity|exact IH].
Qed.
Lemma panics_up : forall n s l, panics_after ptok_next s l -> panics_after ptok_next (up n s) (map (later_item n) l).
Proof.
  intros n s l H. induction H as [s E|s s' a l E H IH]; cbn [map].
  - apply panics_nil. rewrite ptok_up, E. reflexivity.
  - eapply panics_cons; [rewrite ptok_up, E; reflexivity|exact IH].
Qed.
Lemma panics_roundtrip : forall ws off f ts, filed ws ->
  forall l, panics_after ptok_next (mkPtok ts f (off + length (stream ws))) l ->
  panics_after ptok_next (mkPtok (map TByte (stream ws) ++ ts) f off) (map Ok (packets_at off ws) ++ l).
Proof.
  unfold stream. intros ws off f ts [Hok Hlen]. revert off. induction ws as [|w ws IH]; intros off l Hl.
  - cbn in *. rewrite Nat.add_0_r in Hl. exact Hl.
  - inversion Hok; inversion Hlen; subst. cbn [map concat packets_at app].
    destruct (wire_bytes_props w H1) as (Hb & L7 & LW & HH). rewrite map_app, <- app_assoc.
    eapply panics_cons.
    + rewrite ptok_packet; [rewrite HH; reflexivity|assumption|lia|lia|]. rewrite LW. apply max_len_spec. assumption.
    + apply IH; [assumption..|]. cbn [map concat] in Hl. rewrite app_length in Hl. rewrite Nat.add_assoc in Hl. exact Hl.
Qed.
Lemma stream_ok : forall ws, filed ws -> bytes_ok (stream ws).
Proof. intros ws [A _]. apply concat_wire_ok. exact A. Qed.

(* Behind the bytes of whole packets, a stream reads as alone: the items, errors and panics of decode_packets are those of the
   packets and then those of what follows, which is at later offsets *)
Theorem C104_packets : forall ws r r' more, filed ws ->
  transcript (evs r') = more -> Forall (fun t => match t with TByte b => (b < 256)%N | _ => True end) more ->
  transcript (evs r) = map TByte (stream ws) ++ more -> fin r = fin r' ->
  (forall items, yields pdec_next (pdec_new r') items ->
     yields pdec_next (pdec_new r) (map Ok (packets_at 0 ws) ++ map (later_item (length (stream ws))) items)) /\
  (forall items, panics_after pdec_next (pdec_new r') items ->
     panics_after pdec_next (pdec_new r) (map Ok (packets_at 0 ws) ++ map (later_item (length (stream ws))) items)).
Proof.
  intros ws r r' more F <- B E FI.
  assert (P' : pd_ok (pdec_new r')) by exact B.
  assert (P : pd_ok (pdec_new r)).
  { unfold pd_ok. cbn [pd_reader pdec_new]. rewrite E. apply tbytes_ok_app. split; [apply tbytes_ok_map, stream_ok; exact F|exact B]. }
  assert (T : ptok_of (pdec_new r) = mkPtok (map TByte (stream ws) ++ transcript (evs r')) (fin r') 0) by (unfold ptok_of; cbn [pd_reader pd_offset pdec_new]; rewrite E, FI; reflexivity).
  assert (U : up (length (stream ws)) (ptok_of (pdec_new r')) = mkPtok (transcript (evs r')) (fin r') (0 + length (stream ws))) by (unfold up, ptok_of; cbn; rewrite Nat.add_0_r; reflexivity).
  split; intros items Y.
  - apply pdec_yields in Y; [|exact P']. apply (yields_up (length (stream ws))) in Y. rewrite U in Y. apply pdec_yields; [exact P|]. rewrite T.
    apply ptok_roundtrip; [apply F|apply F|exact Y].
  - apply pdec_panics in Y; [|exact P']. apply (panics_up (length (stream ws))) in Y. rewrite U in Y. apply pdec_panics; [exact P|]. rewrite T.
    apply panics_roundtrip; [exact F|exact Y].
Qed.
Print Assumptions C104_packets.

Lemma filed_app : forall a b, filed a -> filed b -> filed (a ++ b).
Proof. intros a b [A A'] [B B']. split; apply Forall_app; auto. Qed.
Lemma stream_app : forall a b, stream (a ++ b) = stream a ++ stream b.
Proof. intros. unfold stream. rewrite map_app, concat_app. reflexivity. Qed.
Lemma holds_app : forall wa bb wb, filed wa -> file_holds bb wb -> file_holds (stream wa ++ bb) (wa ++ wb).
Proof.
  intros wa bb wb [A A'] (B & B' & tail & -> & T). split; [apply Forall_app; auto|]. split; [apply Forall_app; auto|].
  exists tail. split; [|exact T]. rewrite map_app, concat_app, <- app_assoc. reflexivity.
Qed.
Lemma holds_stream : forall ws, filed ws -> file_holds (stream ws) ws.
Proof. intros ws [A B]. apply wires_file; assumption. Qed.

(* Behind a recording that is cut off inside a packet, the packet is filled up with the first bytes of the next recording, which are
   lost there; the next recording is read from somewhere inside its packets *)
Theorem C104_cut_packet_refuted : forall ws w g g' b more r r' items, filed (ws ++ [w]) ->
  wire_bytes w = g ++ g' -> 6 <= length g -> bytes_ok b -> length b = length g' ->
  bytes_ok more -> transcript (evs r') = map TByte more ->
  transcript (evs r) = map TByte ((stream ws ++ g) ++ (b ++ more)) -> fin r = fin r' ->
  yields pdec_next (pdec_new r') items ->
  yields pdec_next (pdec_new r) (map Ok (packets_at 0 ws) ++
    Ok (mkPacket (w_header w) (g ++ b) (length (stream ws))) :: map (later_item (length (stream ws ++ g ++ b))) items).
Proof.
  intros ws w g g' b more r r' items F E L B LB MO T' T FI Y.
  assert (F2 : Forall wire_ok ws /\ Forall wire_ok [w]) by (apply Forall_app; apply F).
  assert (F3 := proj2 F). apply Forall_app in F3. destruct F2 as [FW W], F3 as [FL WL]. inversion W as [|? ? (HO & BO & LO) _]; subst. inversion WL as [|? ? WL' _]; subst.
  unfold wire_bytes in E. assert (LE : length (encode_header (w_header w)) = 6) by reflexivity.
  assert (SP : exists g2, g = encode_header (w_header w) ++ g2).
  { revert LE E. generalize (encode_header (w_header w)). intros eh LE E. exists (skipn 6 g). rewrite <- (firstn_skipn 6 g) at 1. f_equal.
    assert (X : firstn 6 (eh ++ w_body w) = firstn 6 (g ++ g')) by (rewrite E; reflexivity).
    rewrite !firstn_app, LE in X. replace (6 - length g) with 0 in X by lia. rewrite !firstn_O, !app_nil_r in X. rewrite <- X. apply firstn_all2. lia. }
  destruct SP as [g2 ->]. rewrite <- app_assoc in E. apply app_inv_head in E.
  set (w' := mkWire (w_header w) (g2 ++ b)).
  assert (WB : wire_bytes w' = (encode_header (w_header w) ++ g2) ++ b) by (unfold wire_bytes, w'; cbn [w_header w_body]; rewrite app_assoc; reflexivity).
  assert (LB' : length (g2 ++ b) = length (w_body w)) by (rewrite E, !app_length; lia).
  assert (FW' : filed (ws ++ [w'])).
  { assert (OK : wire_ok w').
    { split; [exact HO|]. cbn [w_body w_header w']. split; [|rewrite LB'; exact LO]. apply bytes_ok_app. rewrite E in BO. apply bytes_ok_app in BO. split; [apply BO|exact B]. }
    split; apply Forall_app; (split; [assumption|]); constructor; [exact OK|constructor| |constructor].
    unfold wire_bytes in WL'. rewrite app_length in WL'. unfold wire_bytes. cbn [w_header w_body w']. rewrite app_length, LB'. exact WL'. }
  assert (ST : stream (ws ++ [w']) = stream ws ++ ((encode_header (w_header w) ++ g2) ++ b)).
  { rewrite stream_app. f_equal. unfold stream. cbn [map concat]. rewrite app_nil_r. exact WB. }
  destruct (C104_packets (ws ++ [w']) r r' _ FW' eq_refl) as [Y1 _].
  - rewrite T'. apply tbytes_ok_map. exact MO.
  - rewrite T, T', ST, <- map_app. f_equal. rewrite <- !app_assoc. reflexivity.
  - exact FI.
  - specialize (Y1 items Y). rewrite packets_at_app, map_app, <- app_assoc, ST in Y1. cbn [packets_at map app] in Y1. rewrite WB in Y1. exact Y1.
Qed.
Print Assumptions C104_cut_packet_refuted.

(* ---- groups ---- *)
Lemma grouping_app : forall ps gs, grouping ps gs -> forall qs hs, grouping qs hs -> apart gs qs -> grouping (ps ++ qs) (gs ++ hs).
Proof.
  intros ps gs G. induction G as [|p ps gs F G IH|p run rest gs F R N G IH]; intros qs hs H A; cbn [app]; [exact H| |].
  - constructor; [exact F|]. apply IH; [exact H|]. intros init g q r E1 E2. apply (A (mkGroup (apid_of p) [p] :: init) g q r); [cbn [app]; rewrite E1; reflexivity|exact E2].
  - rewrite <- app_assoc. constructor; [exact F|exact R| |].
    + destruct rest as [|x rest]; [|exact N]. cbn [app]. destruct qs as [|q r]; [exact I|]. inversion G; subst.
      destruct (A [] (mkGroup (apid_of p) (p :: run)) q r eq_refl eq_refl) as [X|(p' & X & F')]; [cbn [g_apid] in X; congruence|].
      cbn [g_packets] in X. injection X as -> ->. contradiction.
    + apply IH; [exact H|]. intros init g q r E1 E2. apply (A (mkGroup (apid_of p) (p :: run) :: init) g q r); [cbn [app]; rewrite E1; reflexivity|exact E2].
Qed.
Lemma same_places : forall ws off off', Forall2 same (packets_at off ws) (packets_at off' ws).
Proof. induction ws as [|w ws IH]; intros off off'; cbn [packets_at]; constructor; [split; reflexivity|apply IH]. Qed.
Lemma apart_off : forall gs ws off off', apart gs (packets_at off ws) -> apart gs (packets_at off' ws).
Proof.
  intros gs ws off off' A init g q r E1 E2. destruct ws as [|w ws]; [discriminate|]. cbn [packets_at] in E2. injection E2 as <- <-.
  destruct (A init g _ _ E1 eq_refl) as [X|X]; [left; exact X|right; exact X].
Qed.
Lemma groups_joined : forall wa wb gsa gsb, grouping (packets_at 0 wa) gsa -> grouping (packets_at 0 wb) gsb -> apart gsa (packets_at 0 wb) ->
  exists gsb', grouping (packets_at 0 (wa ++ wb)) (gsa ++ gsb') /\ Forall2 same_group gsb gsb'.
Proof.
  intros wa wb gsa gsb GA GB A. destruct (grouping_same _ _ GB _ (same_places wb 0 (0 + length (concat (map wire_bytes wa))))) as (gsb' & G' & S').
  exists gsb'. split; [|exact S']. rewrite packets_at_app. apply grouping_app; [exact GA|exact G'|]. eapply apart_off. exact A.
Qed.

(* ---- filter ---- *)
(* by apid: what is written of the joined recordings is what is written of the first and then what is written of the second *)
Theorem C104_filter_apids : forall creatable fs a b c wa bb wb include exclude,
  ready creatable fs a -> ready creatable fs b -> ready creatable fs c ->
  filed wa -> file_holds bb wb -> aget (fa_input a) fs = Some (stream wa) -> aget (fa_input b) fs = Some bb -> aget (fa_input c) fs = Some (stream wa ++ bb) ->
  numbers a include exclude -> numbers b include exclude -> numbers c include exclude -> some_apid include exclude ->
  untimed a -> untimed b -> untimed c ->
  exists outa outb fsa fsb fsc,
    filter_command creatable fs a = Val (Success, fsa) /\ only_written fs (fa_output a) outa fsa /\
    filter_command creatable fs b = Val (Success, fsb) /\ only_written fs (fa_output b) outb fsb /\
    filter_command creatable fs c = Val (Success, fsc) /\ only_written fs (fa_output c) (outa ++ outb) fsc.
Proof.
  intros creatable fs a b c wa bb wb ix ex (MA & CA & NA) (MB & CB & NB) (MC & CC & NC) FA FB IA IB IC [A1 A2] [B1 B2] [C1 C2] SA [UA UA'] [UB UB'] [UC UC'].
  destruct (C56_filter_command_apids creatable fs a _ wa ix ex MA CA NA IA (holds_stream _ FA) A1 A2 SA UA UA') as (ka & fsa & KA & EA & WA).
  destruct (C56_filter_command_apids creatable fs b _ wb ix ex MB CB NB IB FB B1 B2 SA UB UB') as (kb & fsb & KB & EB & WB).
  destruct (C56_filter_command_apids creatable fs c _ (wa ++ wb) ix ex MC CC NC IC (holds_app _ _ _ FA FB) C1 C2 SA UC UC') as (kc & fsc & KC & EC & WC).
  exists (concat (map wire_bytes ka)), (concat (map wire_bytes kb)), fsa, fsb, fsc. repeat (split; [assumption|]).
  rewrite (kept_det _ _ _ _ _ KC (kept_app _ _ _ _ _ _ KA KB)), map_app, concat_app in WC. exact WC.
Qed.
Print Assumptions C104_filter_apids.
(* with time options: the same, when the last group of the first recording does not go on in the second *)
Theorem C104_filter_times : forall creatable fs a b c wa bb wb gsa include exclude,
  ready creatable fs a -> ready creatable fs b -> ready creatable fs c ->
  filed wa -> file_holds bb wb -> aget (fa_input a) fs = Some (stream wa) -> aget (fa_input b) fs = Some bb -> aget (fa_input c) fs = Some (stream wa ++ bb) ->
  numbers a include exclude -> numbers b include exclude -> numbers c include exclude ->
  timed a -> fa_before b = fa_before a -> fa_after b = fa_after a -> fa_before c = fa_before a -> fa_after c = fa_after a ->
  grouping (packets_at 0 wa) gsa -> apart gsa (packets_at 0 wb) ->
  exists outa outb fsa fsb fsc,
    filter_command creatable fs a = Val (Success, fsa) /\ only_written fs (fa_output a) outa fsa /\
    filter_command creatable fs b = Val (Success, fsb) /\ only_written fs (fa_output b) outb fsb /\
    filter_command creatable fs c = Val (Success, fsc) /\ only_written fs (fa_output c) (outa ++ outb) fsc.
Proof.
  intros creatable fs a b c wa bb wb gsa ix ex (MA & CA & NA) (MB & CB & NB) (MC & CC & NC) FA FB IA IB IC [A1 A2] [B1 B2] [C1 C2] TM BB AB BC AC GA AP.
  assert (TB : timed b) by (unfold timed; rewrite BB, AB; exact TM). assert (TC : timed c) by (unfold timed; rewrite BC, AC; exact TM).
  destruct (grouping_total (packets_at 0 wb)) as [gsb GB]. destruct (groups_joined wa wb gsa gsb GA GB AP) as (gsb' & GC & SG).
  destruct (C56_filter_command_times creatable fs a _ wa gsa ix ex MA CA NA IA (holds_stream _ FA) GA A1 A2 TM) as (ka & fsa & KA & EA & WA).
  destruct (C56_filter_command_times creatable fs b _ wb gsb ix ex MB CB NB IB FB GB B1 B2 TB) as (kb & fsb & KB & EB & WB).
  destruct (C56_filter_command_times creatable fs c _ (wa ++ wb) _ ix ex MC CC NC IC (holds_app _ _ _ FA FB) GC C1 C2 TC) as (kc & fsc & KC & EC & WC).
  rewrite BB, AB in KB. rewrite BC, AC in KC.
  exists (concat (map group_bytes ka)), (concat (map group_bytes kb)), fsa, fsb, fsc. repeat (split; [assumption|]).
  set (P := fun g => timely (fa_before a) (fa_after a) g /\ accepted ix ex (g_apid g)) in *.
  destruct (kept_rel _ _ same_group P P) with (l := gsb) (k := kb) (l' := gsb') as (kb' & KB' & SK); [|exact KB|exact SG|].
  { intros x y SXY. assert (SYX := same_group_sym _ _ SXY). assert (AE : g_apid x = g_apid y) by apply SXY. unfold P. rewrite AE.
    split; intros [X Y]; (split; [|exact Y]); eapply timely_same; [exact SXY|exact X|exact SYX|exact X]. }
  rewrite (kept_det _ _ _ _ _ KC (kept_app _ _ _ _ _ _ KA KB')), map_app, concat_app, <- (same_group_bytes _ _ SK) in WC. exact WC.
Qed.
Print Assumptions C104_filter_times.

(* ---- merge ---- *)
(* joined recordings are merged like the recordings as two files, with any further files *)
Lemma eligible_joined : forall m a b c rest ws gsa, ~ In c rest -> filed (ws a) -> place_free (mg_time m) ->
  grouping (packets_at 0 (ws a)) gsa -> apart gsa (packets_at 0 (ws b)) ->
  let ws' p := if (p =? c)%N then ws a ++ ws b else ws p in
  (forall g, eligible (on_paths m (a :: b :: rest)) ws g -> exists g', eligible (on_paths m (c :: rest)) ws' g' /\ same_group g g') /\
  (forall g, eligible (on_paths m (c :: rest)) ws' g -> exists g', eligible (on_paths m (a :: b :: rest)) ws g' /\ same_group g g').
Proof.
  intros m a b c rest ws gsa NI FA PF GA AP ws'.
  destruct (grouping_total (packets_at 0 (ws b))) as [gsb GB]. destruct (groups_joined _ _ _ _ GA GB AP) as (gsb' & GC & SG).
  assert (WC : ws' c = ws a ++ ws b) by (unfold ws'; rewrite N.eqb_refl; reflexivity).
  assert (WR : forall p, In p rest -> ws' p = ws p) by (intros p I; unfold ws'; destruct (N.eqb_spec p c); [subst; contradiction|reflexivity]).
  assert (RE : forall g, same_group g g) by (intro g; split; [reflexivity|induction (g_packets g); constructor; [split; reflexivity|assumption]]).
  split; intros g G; apply eligible_fit in G; destruct G as (p & gs & f & r & I & G & J & E & FT); cbn [on_paths mg_paths] in I.
  - destruct I as [<-|[<-|I]].
    + rewrite (grouping_det _ _ _ G GA) in J. exists g. split; [|apply RE]. apply eligible_fit. exists c, (gsa ++ gsb'), f, r. rewrite WC.
      split; [left; reflexivity|]. split; [exact GC|]. split; [apply in_app_iff; left; exact J|]. split; [exact E|exact FT].
    + rewrite (grouping_det _ _ _ G GB) in J. destruct (Forall2_in_l _ _ _ _ _ _ SG J) as (g' & J' & S'). exists g'. split; [|exact S'].
      destruct S' as [SA SP]. rewrite E in SP. inversion SP as [|? f' ? r' SF SR E1 E2]; subst. apply eligible_fit. exists c, (gsa ++ gsb'), f', r'. rewrite WC.
      split; [left; reflexivity|]. split; [exact GC|]. split; [apply in_app_iff; right; exact J'|]. split; [symmetry; exact E2|]. eapply same_fit; [exact PF|exact SF|exact FT].
    + exists g. split; [|apply RE]. apply eligible_fit. exists p, gs, f, r. rewrite (WR p I). split; [right; exact I|]. auto.
  - destruct I as [<-|I].
    + rewrite WC in G. rewrite (grouping_det _ _ _ G GC) in J. apply in_app_iff in J. destruct J as [J|J].
      * exists g. split; [|apply RE]. apply eligible_fit. exists a, gsa, f, r. split; [left; reflexivity|]. auto.
      * destruct (Forall2_in_r _ _ _ _ _ _ SG J) as (g' & J' & S'). apply same_group_sym in S'. exists g'. split; [|exact S'].
        destruct S' as [SA SP]. rewrite E in SP. inversion SP as [|? f' ? r' SF SR E1 E2]; subst. apply eligible_fit. exists b, gsb, f', r'.
        split; [right; left; reflexivity|]. split; [exact GB|]. split; [exact J'|]. split; [symmetry; exact E2|]. eapply same_fit; [exact PF|exact SF|exact FT].
    + rewrite (WR p I) in G. exists g. split; [|apply RE]. apply eligible_fit. exists p, gs, f, r. split; [right; right; exact I|]. auto.
Qed.
Theorem C104_merge : forall h h' fs m a b c rest ws bb gsa, hash_ok h -> hash_ok h' ->
  readable fs (on_paths m (a :: b :: rest)) ws -> place_free (mg_time m) -> no_ties (on_paths m (a :: b :: rest)) ws ->
  fs a = Some (stream (ws a)) -> fs b = Some bb -> fs c = Some (stream (ws a) ++ bb) -> ~ In c rest ->
  grouping (packets_at 0 (ws a)) gsa -> apart gsa (packets_at 0 (ws b)) ->
  merge h' fs (on_paths m (c :: rest)) = merge h fs (on_paths m (a :: b :: rest)).
Proof.
  intros h h' fs m a b c rest ws bb gsa H H' R PF NT FA FB FC NI GA AP.
  assert (FIA : filed (ws a)). { destruct (R a) as (x & _ & X); [left; reflexivity|]. destruct X as (X1 & X2 & _). split; assumption. }
  destruct (eligible_joined m a b c rest ws gsa NI FIA PF GA AP) as [TO FROM]. set (ws' := fun p => if (p =? c)%N then ws a ++ ws b else ws p) in *.
  destruct (main_sorted h fs _ ws H R NT) as (sel & -> & EL & CA & ST).
  apply merge_unique with (ws := ws').
  - exact H'.
  - intros p I. cbn [on_paths mg_paths] in I. destruct (N.eqb_spec p c) as [->|N].
    + exists (stream (ws a) ++ bb). split; [exact FC|]. unfold ws'. rewrite N.eqb_refl. apply holds_app; [exact FIA|].
      destruct (R b) as (x & X & Y); [right; left; reflexivity|]. rewrite FB in X. injection X as ->. exact Y.
    + destruct I as [->|I]; [contradiction|]. destruct (R p) as (x & X & Y); [right; right; exact I|]. exists x. split; [exact X|].
      unfold ws'. destruct (N.eqb_spec p c); [contradiction|exact Y].
  - intros g G. destruct (FROM g G) as (g' & G' & SG). destruct (CA g' G') as (g0 & I & K & E). exists g0. split; [exact I|].
    rewrite !gkey_on in *. rewrite (same_gkey m _ _ PF SG), (same_group_bytes1 _ _ SG). auto.
  - intros g I. rewrite Forall_forall in EL. destruct (TO g (EL g I)) as (g' & G' & SG). exists g'. split; [exact G'|].
    rewrite !gkey_on. rewrite (same_gkey m _ _ PF SG). reflexivity.
  - exact ST.
Qed.
Print Assumptions C104_merge.

(* ---- info ---- *)
Lemma min_app : forall a b, min_of (a ++ b) = earlier (min_of a) (min_of b).
Proof.
  intros a b. induction b as [|t b IH] using rev_ind; [rewrite app_nil_r; cbn [min_of]; destruct (min_of a); reflexivity|].
  rewrite app_assoc, !min_snoc, IH. destruct (min_of a), (min_of b); cbn [earlier]; f_equal; lia.
Qed.
Lemma max_app : forall a b, max_of (a ++ b) = latest (max_of a) (max_of b).
Proof.
  intros a b. induction b as [|t b IH] using rev_ind; [rewrite app_nil_r; cbn [max_of]; destruct (max_of a); reflexivity|].
  rewrite app_assoc, !max_snoc, IH. destruct (max_of a), (max_of b); cbn [latest]; f_equal; lia.
Qed.
Lemma gaps_app : forall ps qs, gaps (ps ++ qs) = (gaps ps + gaps qs + match rev ps, qs with l :: _, f :: _ => seq_gap (seq f) (seq l) | _, _ => 0 end)%N.
Proof.
  intros ps qs. induction ps as [|p ps IH] using rev_ind; [cbn [app rev gaps]; lia|].
  rewrite <- app_assoc. cbn [app]. rewrite rev_app_distr. cbn [rev app].
  clear IH. induction ps as [|x ps IH]; [cbn [app]; destruct qs as [|q qs]; cbn [gaps]; lia|].
  destruct ps as [|y ps]; [cbn [app] in *; destruct qs as [|q qs]; cbn [gaps] in *; lia|].
  change ((x :: y :: ps) ++ p :: qs) with (x :: (y :: ps) ++ p :: qs). change ((x :: y :: ps) ++ [p]) with (x :: (y :: ps) ++ [p]).
  cbn [app] in *. cbn [gaps] in *. cbn [gaps] in IH. lia.
Qed.
Lemma Forall2_rev : forall (A B : Type) (R : A -> B -> Prop) l l', Forall2 R l l' -> Forall2 R (rev l) (rev l').
Proof. intros A B R l l' H. induction H; cbn [rev]; [constructor|]. apply Forall2_app; [assumption|constructor; [assumption|constructor]]. Qed.
Lemma of_apid_wire : forall x ws off, Forall2 is_wire (of_apid x (packets_at off ws)) (filter (fun w => apid (w_header w) =? x)%N ws).
Proof.
  intros x. induction ws as [|w ws IH]; intro off; cbn [packets_at of_apid filter]; [constructor|]. unfold of_apid. cbn [filter]. unfold apid_of at 1. cbn [p_header].
  destruct (apid (w_header w) =? x)%N; [constructor; [split; reflexivity|apply IH]|apply IH].
Qed.
Lemma of_apid_places : forall x ws off off', Forall2 same (of_apid x (packets_at off ws)) (of_apid x (packets_at off' ws)).
Proof.
  intros x ws off off'. assert (A := of_apid_wire x ws off). assert (B := of_apid_wire x ws off'). revert A B.
  generalize (of_apid x (packets_at off ws)) as p. generalize (of_apid x (packets_at off' ws)) as q. generalize (filter (fun w => apid (w_header w) =? x)%N ws) as l.
  intros l q p A. revert q. induction A as [|u v p l A F IH]; intros q B; inversion B as [|u' ? q' ? A' F']; subst; [constructor|]. constructor; [eapply wires_same; eassumption|apply IH; exact F'].
Qed.
Lemma gaps_joined : forall x wa wb, gaps (of_apid x (packets_at 0 (wa ++ wb))) = (gaps (of_apid x (packets_at 0 wa)) + gaps (of_apid x (packets_at 0 wb)) + seam x wa wb)%N.
Proof.
  intros x wa wb. rewrite packets_at_app. set (n := 0 + length (concat (map wire_bytes wa))). unfold of_apid at 1. rewrite filter_app. fold (of_apid x (packets_at 0 wa)) (of_apid x (packets_at n wb)).
  rewrite gaps_app. rewrite (gaps_same (of_apid x (packets_at n wb)) (of_apid x (packets_at 0 wb))).
  2:{ apply of_apid_places. }
  f_equal. unfold seam. assert (A := Forall2_rev _ _ _ _ _ (of_apid_wire x wa 0)). assert (B := of_apid_wire x wb n).
  destruct A as [|p w ps ws [E _] _]; [reflexivity|]. destruct B as [|p' w' ps' ws' [E' _] _]; [reflexivity|]. unfold seq. rewrite E, E'. reflexivity.
Qed.
Lemma row_describes : forall (f : packet -> option Z) ps rows, StronglySorted N.lt (map fst rows) ->
  (forall x, In x (map fst rows) <-> exists p, In p ps /\ apid_of p = x) ->
  (forall x s, In (x, s) rows -> describes f (of_apid x ps) s /\ i_missing s = gaps (of_apid x ps)) ->
  forall x, describes f (of_apid x ps) (row_at x rows) /\ i_missing (row_at x rows) = gaps (of_apid x ps).
Proof.
  intros f ps rows SO K D x. unfold row_at. destruct (aget x rows) as [s|] eqn:G; [apply D, aget_in; exact G|].
  assert (E : of_apid x ps = []).
  { destruct (of_apid x ps) as [|p l] eqn:O; [reflexivity|exfalso]. assert (I : In p (of_apid x ps)) by (rewrite O; left; reflexivity). unfold of_apid in I. apply filter_In in I. destruct I as [I E].
    assert (J : In x (map fst rows)) by (apply K; exists p; split; [exact I|apply N.eqb_eq; exact E]). apply aget_none in G. contradiction. }
  rewrite E. split; [|reflexivity]. repeat split.
Qed.
(* the report on joined recordings: the numbers of packets add up, the times are the earliest and the latest of both, and of each
   apid the packets missing between the recordings come on top of those missing in each *)
Theorem C104_info : forall ovf fs a b c wa bb wb cds, filed wa -> file_holds bb wb ->
  aget a fs = Some (stream wa) -> aget b fs = Some bb -> aget c fs = Some (stream wa ++ bb) ->
  exists alla rowsa allb rowsb allc rowsc,
    info_command ovf fs a cds = Val (Some (alla, rowsa)) /\ info_command ovf fs b cds = Val (Some (allb, rowsb)) /\ info_command ovf fs c cds = Val (Some (allc, rowsc)) /\
    adds_up alla allb allc /\ (forall x, adds_up (row_at x rowsa) (row_at x rowsb) (row_at x rowsc)) /\
    (forall x, In x (map fst rowsc) <-> In x (map fst rowsa) \/ In x (map fst rowsb)) /\
    (forall x, i_missing (row_at x rowsc) = i_missing (row_at x rowsa) + i_missing (row_at x rowsb) + seam x wa wb)%N /\
    i_missing allc = missing_sum rowsc.
Proof.
  intros ovf fs a b c wa bb wb cds FA FB GA GB GC.
  destruct (C69_info_command ovf fs a _ wa cds GA (holds_stream _ FA)) as (alla & rowsa & EA & DA & MA & SA & KA & RA).
  destruct (C69_info_command ovf fs b _ wb cds GB FB) as (allb & rowsb & EB & DB & MB & SB & KB & RB).
  destruct (C69_info_command ovf fs c _ (wa ++ wb) cds GC (holds_app _ _ _ FA FB)) as (allc & rowsc & EC & DC & MC & SC & KC & RC).
  exists alla, rowsa, allb, rowsb, allc, rowsc. split; [exact EA|]. split; [exact EB|]. split; [exact EC|].
  set (f := tf (if cds then Some cds_time else None)) in *.
  assert (PF : place_free f) by apply decoder_free.
  assert (X : forall ps qs qs' sa sb sc, describes f ps sa -> describes f qs sb -> Forall2 same qs qs' -> describes f (ps ++ qs') sc -> adds_up sa sb sc).
  { intros ps qs qs' sa sb sc (A1 & A2 & A3 & _) (B1 & B2 & B3 & _) SM (C1 & C2 & C3 & _). unfold adds_up.
    rewrite A1, A2, A3, B1, B2, B3, C1, C2, C3, stamps_app, min_app, max_app, app_length, (stamps_same f PF _ _ SM).
    assert (L : length qs = length qs') by (clear -SM; induction SM; cbn; congruence). rewrite L. split; [lia|]. auto. }
  assert (PA : forall ws (rows : amap isummary), (forall x, In x (map fst rows) <-> exists w, In w ws /\ apid (w_header w) = x) -> forall x, In x (map fst rows) <-> exists p, In p (packets_at 0 ws) /\ apid_of p = x).
  { intros ws rows K x. rewrite K. split.
    - intros (w & I & E). destruct (wire_at _ 0 _ I) as (p & J & [P _]). exists p. split; [exact J|]. unfold apid_of. rewrite P. exact E.
    - intros (p & I & E). destruct (at_wire _ _ _ I) as (w & J & [P _]). exists w. split; [exact J|]. unfold apid_of in E. rewrite <- P. exact E. }
  assert (DRA := row_describes f _ _ SA (PA _ _ KA) RA). assert (DRB := row_describes f _ _ SB (PA _ _ KB) RB). assert (DRC := row_describes f _ _ SC (PA _ _ KC) RC).
  set (n := length (concat (map wire_bytes wa))).
  split; [|split; [|split; [|split]]].
  - rewrite packets_at_app in DC. eapply X; [exact DA|exact DB|apply (same_places wb 0 (0 + n))|exact DC].
  - intro x. destruct (DRA x) as [D1 _], (DRB x) as [D2 _], (DRC x) as [D3 _]. rewrite packets_at_app in D3. unfold of_apid in D3. rewrite filter_app in D3.
    eapply X; [exact D1|exact D2| |exact D3]. fold (of_apid x (packets_at (0 + n) wb)).
    apply of_apid_places.
  - intro x. rewrite KA, KB, KC. split.
    + intros (w & I & E). apply in_app_iff in I. destruct I as [I|I]; [left|right]; exists w; auto.
    + intros [(w & I & E)|(w & I & E)]; exists w; (split; [apply in_app_iff; auto|exact E]).
  - intro x. destruct (DRA x) as [_ ->], (DRB x) as [_ ->], (DRC x) as [_ ->]. apply gaps_joined.
  - exact MC.
Qed.
Print Assumptions C104_info.
