(* Properties C49 and C50: the filter command and its number lists *)
From Verif Require Import Base S_Bits S_Timecode M_Reader M_Packet M_Group S_Packet S_Group M_Timecode L_Base L_Packet L_Group M_Merge S_Merge L_Merge M_Cli S_Cli P_Timecode.
Open Scope N_scope.

(* the time decoder of the command does not panic on decoded packets: reading its panic as "no time" in
   the model loses nothing *)
Lemma cds_time_defined : forall ovf p, bytes_ok (p_data p) -> (6 <= length (p_data p))%nat ->
  tdecoder_decode ovf (tdecoder_new (Cds 2 2)) p <> Panic.
Proof.
  intros ovf p HB HL. unfold tdecoder_decode, tdecoder_new. cbn [td_formats td_default aget].
  rewrite slice_from_ok by exact HL. cbn [obind]. intro E. apply C16_cds_panic_exact in E; [|apply bytes_ok_skipn; exact HB]. lia.
Qed.

(* The time of a packet, for filter's --before and --after, merge's order and its --from and --to, and info: the CDS day (2
   bytes), the milliseconds (4) and the microseconds (2) behind the primary header; a packet with fewer bytes has none. *)
Theorem C49_packet_time : forall p, bytes_ok (p_data p) -> (6 <= length (p_data p))%nat -> let body := skipn 6 (p_data p) in
  cds_time p = if (8 <=? length body)%nat
    then Some (epoch1958 + Z.of_N (field body 0 16) * ns_per_day + Z.of_N (field body 16 32) * 1000000 + Z.of_N (field body 48 16) * 1000)%Z
    else None.
Proof.
  intros p HB HL body. unfold cds_time, tdecoder_decode, tdecoder_new. cbn [td_formats td_default aget].
  rewrite slice_from_ok by exact HL. cbn [obind]. fold body. destruct (Nat.leb_spec 8 (length body)) as [L|L].
  - rewrite (C13_cds_value true 2 2); [reflexivity|apply bytes_ok_skipn; exact HB|lia|right; reflexivity|exact L].
  - rewrite (C13_cds_short true 2 2) by exact L. reflexivity.
Qed.
Print Assumptions C49_packet_time.
(* 1958-01-02, 1.002003 s after midnight *)
Example C49_packet_time_ex : cds_time (mkPacket (mkHeader 0 0 true 7 3 5 7) [8; 7; 192; 5; 0; 7; 0; 1; 0; 0; 3; 234; 0; 3] 0) =
  Some (epoch1958 + ns_per_day + 1002003000)%Z.
Proof.
  rewrite C49_packet_time; [vm_compute; reflexivity|repeat constructor|cbn; lia].
Qed.

Lemma kept_filter : forall A (P : A -> Prop) (f : A -> bool) l, (forall x, In x l -> (f x = true <-> P x)) -> kept P l (filter f l).
Proof.
  induction l as [|x l IH]; intro H; cbn [filter]; [constructor|]. destruct (f x) eqn:E.
  - constructor; [apply H; [left; reflexivity|exact E]|]. apply IH. intros y I. apply H. right. exact I.
  - constructor; [intro C; apply H in C; [congruence|left; reflexivity]|]. apply IH. intros y I. apply H. right. exact I.
Qed.
Lemma map_while_map : forall A (l : list A), map_while_ok (map Ok l) = l.
Proof. induction l; cbn; congruence. Qed.
Lemma mem_in : forall a l, mem a l = true <-> In a l.
Proof.
  intros a l. unfold mem. rewrite existsb_exists. split; [intros (x & I & E); apply N.eqb_eq in E; congruence|intro I; exists a; split; [exact I|apply N.eqb_refl]].
Qed.
Lemma is_nil_iff : forall A (l : list A), is_nil l = true <-> l = [].
Proof. intros A [|x l]; split; intro H; try reflexivity; discriminate. Qed.

Definition bound (before : option Z) : Z := match before with Some b => b | None => 73049 * 86400 * 1000000000 end%Z.
Lemma filter_keep_spec : forall include exclude before after p,
  filter_keep include exclude before after p = true <->
  ((fp_time p < bound before)%Z /\ match after with Some a => (a <= fp_time p)%Z | None => True end) /\ wanted include exclude (fp_apid p).
Proof.
  intros include exclude before after [d a t]. unfold filter_keep, wanted, bound. cbn [fp_time fp_apid].
  assert (I := mem_in a include). assert (E := mem_in a exclude). assert (NI := is_nil_iff _ include). assert (NE := is_nil_iff _ exclude).
  change MAX_EPOCH with (73049 * 86400 * 1000000000)%Z. set (mx := (73049 * 86400 * 1000000000)%Z). clearbody mx.
  assert (EX : exclude = [] -> ~ In a exclude) by (intros ->; auto).
  destruct before as [b|], after as [f|]; cbn [is_none negb andb orb];
    destruct (is_nil include), (is_nil exclude), (mem a include), (mem a exclude); cbn [negb andb orb];
    repeat match goal with |- context [(?x <? ?y)%Z] => destruct (Z.ltb_spec x y) | |- context [(?x <=? ?y)%Z] => destruct (Z.leb_spec x y) end;
    cbn [negb andb orb]; (split; [try discriminate; intros _|try reflexivity; intros [[? ?] [? ?]]; exfalso]); intuition (try lia; try discriminate).
Qed.

(* ---- C49 ---- *)
(* by apids only: the packets wanted, in order, byte for byte *)
Theorem C49_filter_apids : forall bs ws include exclude, file_holds bs ws -> include <> [] \/ exclude <> [] ->
  exists items kps, yields pdec_next (pdec_new (reader_of bs)) items /\
    kept (fun w => wanted include exclude (apid (w_header w))) ws kps /\
    filter_cmd items include exclude None None = Val (Some (concat (map wire_bytes kps))).
Proof.
  intros bs ws include exclude (HW & HL & tail & -> & HB & HI & HT) HN.
  exists (map Ok (packets_at 0 ws)). set (f := fun w : wire_packet => filter_keep include exclude None None (mkFptr [] (apid (w_header w)) MIN_EPOCH)).
  exists (filter f ws). split; [apply decode_stream_plain; assumption|]. split.
  - apply kept_filter. intros w _. unfold f. rewrite filter_keep_spec. cbn [fp_time fp_apid]. unfold MIN_EPOCH, bound. split; [tauto|]. intro; split; [split; [lia|exact I]|assumption].
  - unfold filter_cmd. destruct (is_nil include && is_nil exclude) eqn:E.
    { apply andb_true_iff in E. rewrite !is_nil_iff in E. destruct E, HN; contradiction. }
    cbn [andb is_none negb orb obind]. do 2 f_equal. rewrite map_while_map. unfold f. clear. generalize 0%nat.
    induction ws as [|w ws IH]; intro off; cbn [packets_at map filter p_header p_data]; [reflexivity|].
    replace (filter_keep include exclude None None (mkFptr (wire_bytes w) (apid (w_header w)) MIN_EPOCH))
      with (filter_keep include exclude None None (mkFptr [] (apid (w_header w)) MIN_EPOCH)) by reflexivity.
    destruct (filter_keep include exclude None None (mkFptr [] (apid (w_header w)) MIN_EPOCH)); cbn [map concat fp_data]; rewrite IH; reflexivity.
Qed.
Print Assumptions C49_filter_apids.

(* with a time option: whole groups, in order, byte for byte *)
Theorem C49_filter_times : forall bs ws gs include exclude before after, file_holds bs ws ->
  grouping (packets_at 0 ws) gs -> before <> None \/ after <> None ->
  exists items kps, yields pdec_next (pdec_new (reader_of bs)) items /\
    kept (fun g => timely before after g /\ wanted include exclude (g_apid g)) gs kps /\
    filter_cmd items include exclude before after = Val (Some (concat (map group_bytes kps))).
Proof.
  intros bs ws gs include exclude before after (HW & HL & tail & -> & HB & HI & HT) G HN.
  exists (map Ok (packets_at 0 ws)).
  set (f := fun g => match fptr_of_group g with Some p => filter_keep include exclude before after p | None => false end).
  exists (filter f gs). split; [apply decode_stream_plain; assumption|].
  assert (WF := grouping_wf _ _ G). assert (CC := grouping_concat _ _ G).
  assert (FL : forall g p, In g gs -> In p (g_packets g) -> sequence_flags (p_header p) < 4).
  { intros g p Ig Ip. assert (X : In p (packets_at 0 ws)) by (rewrite <- CC; apply in_concat; exists (g_packets g); split; [apply in_map; exact Ig|exact Ip]).
    revert X HW. generalize 0%nat. clear. induction ws as [|w ws IH]; intros off X HW; [destruct X|]. inversion HW; subst. destruct X as [<-|X].
    - apply H1. - eapply IH; eassumption. }
  split.
  - apply kept_filter. intros g Ig. unfold f, fptr_of_group. rewrite Forall_forall in WF. destruct (WF g Ig) as [NE AP].
    destruct (g_packets g) as [|p rest] eqn:EP; [contradiction|].
    assert (FP : sequence_flags (p_header p) < 4) by (eapply FL; [exact Ig|rewrite EP; left; reflexivity]).
    assert (EA : apid (p_header p) = g_apid g) by (inversion AP; assumption).
    assert (QL : is_last p || is_cont p = false <-> sequence_flags (p_header p) = 1 \/ sequence_flags (p_header p) = 3).
    { unfold is_last, is_cont, SEQ_LAST, SEQ_CONTINUATION. rewrite orb_false_iff, !N.eqb_neq. lia. }
    unfold timely. rewrite EP. destruct (is_last p || is_cont p).
    { split; [discriminate|]. intros [(p' & r & t & E & FF & _) _]. injection E as <- <-. apply QL in FF. discriminate. }
    destruct (cds_time p) as [t|] eqn:T.
    + rewrite filter_keep_spec. cbn [fp_time fp_apid]. rewrite EA. split.
      * intros [[A B] C]. split; [|exact C]. exists p, rest, t. split; [reflexivity|]. split; [apply QL; reflexivity|]. split; [exact T|]. split; [exact A|]. destruct after; auto.
      * intros [(p' & r & t' & E & _ & T' & A & B) C]. injection E as <- <-. rewrite T in T'. injection T' as <-. split; [split; [exact A|]|exact C]. destruct after; auto.
    + split; [discriminate|]. intros [(p' & r & t' & E & _ & T' & _) _]. injection E as <- <-. congruence.
  - unfold filter_cmd. replace (is_nil include && is_nil exclude && is_none before && is_none after) with false
      by (destruct before, after, (is_nil include), (is_nil exclude); cbn; try reflexivity; destruct HN; congruence).
    replace (negb (is_none before) || negb (is_none after)) with true by (destruct before, after; cbn; try reflexivity; destruct HN; congruence).
    unfold packets_with_times. rewrite keep_ok_map, (file_groups_ok _ _ G). cbn [obind]. do 2 f_equal. unfold f. clear.
    induction gs as [|g gs IH]; cbn [filter_map_opt filter]; [reflexivity|].
    destruct (fptr_of_group g) as [p|] eqn:E; [|exact IH]. cbn [filter].
    destruct (filter_keep include exclude before after p); [|exact IH]. cbn [map concat]. rewrite IH. f_equal.
    unfold fptr_of_group in E. unfold group_bytes. destruct (g_packets g); [discriminate|].
    destruct (_ || _) in E; [discriminate|]. destruct (cds_time _) in E; [|discriminate]. injection E as <-. reflexivity.
Qed.
Print Assumptions C49_filter_times.

Theorem C49_no_filters : forall items, filter_cmd items [] [] None None = Val None.
Proof. reflexivity. Qed.

(* --after alone does not mean "all from then on": packets of 2100 and later are dropped *)
Theorem C49_after_drops_2100_refuted : forall w after t, wire_ok w -> N.of_nat (length (wire_bytes w)) <= 65536 ->
  sequence_flags (w_header w) = 3 -> cds_time (mkPacket (w_header w) (wire_bytes w) 0) = Some t ->
  (after <= t)%Z -> (73049 * 86400 * 1000000000 <= t)%Z ->
  exists items, yields pdec_next (pdec_new (reader_of (wire_bytes w))) items /\
    filter_cmd items [] [] None (Some after) = Val (Some []).
Proof.
  intros w after t HW HL HF HT HA H.
  assert (FH : file_holds (wire_bytes w) [w]).
  { split; [constructor; [exact HW|constructor]|]. split; [constructor; [exact HL|constructor]|]. exists []. cbn. rewrite !app_nil_r.
    split; [reflexivity|]. split; [constructor|]. split; [apply incomplete_nil|lia]. }
  set (p := mkPacket (w_header w) (wire_bytes w) 0).
  destruct (C49_filter_times (wire_bytes w) [w] [mkGroup (apid_of p) [p]] [] [] None (Some after) FH) as (items & kps & Y & K & E).
  - cbn [packets_at]. apply grouping_standalone; [exact HF|constructor].
  - right. discriminate.
  - exists items. split; [exact Y|]. rewrite E. inversion K as [|? ? ? [T _] _|? ? ? N K']; subst.
    + exfalso. destruct T as (f & rest & t' & EP & _ & T & B & _). injection EP as <- <-. fold p in HT. rewrite HT in T. injection T as <-. lia.
    + inversion K'. reflexivity.
Qed.
Print Assumptions C49_after_drops_2100_refuted.

Definition fl_wire (a day : N) : wire_packet :=
  mkWire (mkHeader 0 0 true a 3 5 8) [day / 256; day mod 256; 0; 0; 0; 0; 0; 0; 1].
Example C49_ex : 
  (exists items, yields pdec_next (pdec_new (reader_of (wire_bytes (fl_wire 7 60000)))) items /\
     filter_cmd items [] [] None (Some 0%Z) = Val (Some [])) /\
  file_holds (wire_bytes (fl_wire 7 1) ++ wire_bytes (fl_wire 8 1) ++ [1]) [fl_wire 7 1; fl_wire 8 1] /\
  filter_cmd (map Ok (packets_at 0 [fl_wire 7 1; fl_wire 8 1])) [] [7] None None = Val (Some (wire_bytes (fl_wire 8 1))).
Proof.
  split; [|split; [|reflexivity]].
  - apply (C49_after_drops_2100_refuted _ _ 7014297600000000000%Z); try reflexivity; try (vm_compute; discriminate).
    repeat constructor.
  - split; [repeat constructor|]. split; [repeat constructor; vm_compute; discriminate|]. exists [1].
    split; [reflexivity|]. split; [repeat constructor|]. split; [left; cbn; lia|cbn; lia].
Qed.

(* ---- C50 ---- *)
Lemma digit_iff : forall c, is_digit c = true <-> 48 <= c <= 57.
Proof. intro c. unfold is_digit. rewrite andb_true_iff, !N.leb_le. reflexivity. Qed.
Lemma span_spec : forall s d r, span_digits s = (d, r) <->
  s = d ++ r /\ Forall (fun c => 48 <= c <= 57) d /\ match r with [] => True | c :: _ => ~ 48 <= c <= 57 end.
Proof.
  induction s as [|c s IH]; intros d r; cbn [span_digits].
  - split; [intro E; injection E as <- <-; auto|]. intros (E & _ & _). symmetry in E. apply app_eq_nil in E. destruct E as [-> ->]. reflexivity.
  - destruct (is_digit c) eqn:D.
    + apply digit_iff in D. destruct (span_digits s) as [d' r'] eqn:SP. assert (X := proj1 (IH d' r') eq_refl). destruct X as (-> & F & M). split.
      * intro E. injection E as <- <-. split; [reflexivity|]. split; [constructor; assumption|exact M].
      * intros (E & F2 & M2). destruct d as [|c' d]; cbn [app] in E; [subst r; contradiction|]. injection E as <- E.
        inversion F2; subst. assert (Y : (d', r') = (d, r)) by (apply IH; auto). injection Y as -> ->. reflexivity.
    + assert (ND : ~ 48 <= c <= 57) by (rewrite <- digit_iff; congruence). split.
      * intro E. injection E as <- <-. auto.
      * intros (E & F & M). destruct d as [|c' d]; cbn [app] in E; [subst r; reflexivity|]. injection E as <- E. inversion F; contradiction.
Qed.
Lemma parse_digits_spec : forall s acc, Forall (fun c => 48 <= c <= 57) s -> acc < 2 ^ 32 ->
  parse_digits acc s = if acc * 10 ^ N.of_nat (length s) + decimal s <? 2 ^ 32 then Some (acc * 10 ^ N.of_nat (length s) + decimal s) else None.
Proof.
  induction s as [|c s IH]; intros acc F HA; cbn [parse_digits length decimal].
  - rewrite N.mul_1_r, N.add_0_r. destruct (N.ltb_spec acc (2 ^ 32)); [reflexivity|lia].
  - inversion F as [|? ? D F']; subst. cbv zeta. rewrite Nat2N.inj_succ, N.pow_succ_r'.
    set (p := 10 ^ N.of_nat (length s)). assert (P : 1 <= p) by (unfold p; assert (10 ^ N.of_nat (length s) <> 0) by (apply N.pow_nonzero; lia); lia).
    replace (acc * (10 * p) + ((c - 48) * p + decimal s)) with ((acc * 10 + (c - 48)) * p + decimal s) by ring.
    destruct (N.ltb_spec (acc * 10 + (c - 48)) (2 ^ 32)) as [L|L]; [apply IH; assumption|].
    destruct (N.ltb_spec ((acc * 10 + (c - 48)) * p + decimal s) (2 ^ 32)) as [L2|L2]; [|reflexivity]. exfalso. nia.
Qed.
Lemma parse0 : forall s, Forall (fun c => 48 <= c <= 57) s -> parse_digits 0 s = if decimal s <? 2 ^ 32 then Some (decimal s) else None.
Proof. intros s F. rewrite parse_digits_spec; [rewrite N.mul_0_l, N.add_0_l; reflexivity|exact F|reflexivity]. Qed.
(* one argument is accepted iff it is a number or a range, and stands for those numbers *)
Theorem C50_parse_one : forall s vs, parse_one s = Some vs <-> denotes s vs.
Proof.
  intros s vs. unfold parse_one. destruct (span_digits s) as [d1 rest] eqn:SP. apply span_spec in SP. destruct SP as (-> & F1 & M1).
  assert (DIG : forall d r d' r', d ++ r = d' ++ r' -> Forall (fun c => 48 <= c <= 57) d -> Forall (fun c => 48 <= c <= 57) d' ->
    match r with [] => True | c :: _ => ~ 48 <= c <= 57 end -> match r' with [] => True | c :: _ => ~ 48 <= c <= 57 end -> d = d' /\ r = r').
  { intros d r d' r' E A B C D. assert (X : span_digits (d ++ r) = (d, r)) by (apply span_spec; auto).
    assert (Y : span_digits (d ++ r) = (d', r')) by (apply span_spec; auto). rewrite X in Y. injection Y as -> ->. auto. }
  assert (U1 : digits (d1 ++ rest) -> rest = []).
  { intros [_ F]. apply Forall_app in F. destruct F as [_ F]. destruct rest; [reflexivity|]. inversion F; subst. contradiction. }
  assert (U2 : forall a b, d1 ++ rest = a ++ [45] ++ b -> digits a -> digits b -> d1 = a /\ rest = 45 :: b).
  { intros a b E [_ A] _. apply (DIG _ _ a (45 :: b)); try assumption. cbn beta iota. lia. }
  destruct d1 as [|c0 d1].
  { split; [discriminate|]. intros [(D & _)|(a & b & E & A & B & _)].
    - assert (rest = []) by (apply U1; exact D). subst rest. destruct D as [N _]. contradiction.
    - destruct (U2 a b E A B) as [<- _]. destruct A as [N _]. contradiction. }
  set (d := c0 :: d1) in *. assert (DD : digits d) by (split; [discriminate|exact F1]).
  destruct rest as [|c rest].
  - rewrite app_nil_r in *. rewrite parse0 by exact F1. split.
    + destruct (N.ltb_spec (decimal d) (2 ^ 32)) as [L|L]; [|discriminate]. intro E. injection E as <-. left. auto.
    + intros [(_ & L & ->)|(a & b & E & A & B & _)].
      * destruct (N.ltb_spec (decimal d) (2 ^ 32)); [reflexivity|lia].
      * exfalso. rewrite <- (app_nil_r d) in E. destruct (DIG _ _ a (45 :: b) E F1 (proj2 A) I) as [_ X]; [cbn beta iota; lia|discriminate].
  - unfold DASH. destruct (N.eqb_spec c 45) as [->|NC].
    + destruct (span_digits rest) as [d2 rest2] eqn:SP2. apply span_spec in SP2. destruct SP2 as (-> & F2 & M2).
      destruct d2 as [|c2 d2].
      { split; [discriminate|]. intros [(D & _)|(a & b & E & A & B & _)]; [apply U1 in D; discriminate|].
        destruct (U2 a b E A B) as [_ X]. injection X as X. cbn [app] in X. subst rest2. destruct B as [NB FB]. destruct b as [|x b]; [contradiction|]. inversion FB; contradiction. }
      set (e := c2 :: d2) in *. destruct rest2 as [|c3 rest2].
      * rewrite app_nil_r in *. rewrite !parse0 by assumption. split.
        -- destruct (N.ltb_spec (decimal d) (2 ^ 32)) as [L|L]; [|discriminate]. destruct (N.ltb_spec (decimal e) (2 ^ 32)) as [L2|L2]; [|discriminate].
           destruct (N.leb_spec (decimal e) (decimal d)) as [Q|Q]; [discriminate|]. intro E. assert (EV : vs = inclusive_range (decimal d) (decimal e)) by congruence. clear E. right. exists d, e.
           split; [reflexivity|]. split; [exact DD|]. split; [split; [discriminate|exact F2]|]. split; [lia|].
           rewrite EV. unfold inclusive_range. replace (decimal e + 1 - decimal d) with (decimal e - decimal d + 1) by lia. reflexivity.
        -- intros [(D & _)|(a & b & E & A & B & L & ->)]; [apply U1 in D; discriminate|].
           destruct (U2 a b E A B) as [<- X]. injection X as <-.
           destruct (N.ltb_spec (decimal d) (2 ^ 32)) as [L1|L1]; [|lia]. destruct (N.ltb_spec (decimal e) (2 ^ 32)) as [L2|L2]; [|lia].
           destruct (N.leb_spec (decimal e) (decimal d)) as [Q|Q]; [lia|]. unfold inclusive_range. replace (decimal e + 1 - decimal d) with (decimal e - decimal d + 1) by lia. reflexivity.
      * split; [discriminate|]. intros [(D & _)|(a & b & E & A & B & _)]; [apply U1 in D; discriminate|].
        destruct (U2 a b E A B) as [_ X]. injection X as X. destruct B as [_ FB]. rewrite <- X in FB. change (c2 :: d2 ++ c3 :: rest2) with (e ++ c3 :: rest2) in FB. apply Forall_app in FB. destruct FB as [_ FB]. inversion FB; contradiction.
    + split; [discriminate|]. intros [(D & _)|(a & b & E & A & B & _)]; [apply U1 in D; discriminate|].
      destruct (U2 a b E A B) as [_ X]. injection X as -> _. contradiction.
Qed.
Print Assumptions C50_parse_one.
(* a list is accepted iff every argument is; the result is what they stand for, in order *)
Theorem C50_parse_number_ranges : forall l vs, parse_number_ranges l = Some vs <->
  exists vss, Forall2 denotes l vss /\ vs = concat vss.
Proof.
  induction l as [|s l IH]; intro vs; cbn [parse_number_ranges].
  - split; [intro E; injection E as <-; exists []; split; [constructor|reflexivity]|]. intros (vss & F & ->). inversion F. reflexivity.
  - destruct (parse_one s) as [v|] eqn:E.
    + destruct (parse_number_ranges l) as [w|].
      * split.
        -- intro X. injection X as <-. destruct (proj1 (IH w) eq_refl) as (vss & F & ->). exists (v :: vss). split; [constructor; [apply C50_parse_one; exact E|exact F]|reflexivity].
        -- intros (vss & F & ->). inversion F as [|? v' ? vss' D F']; subst. apply C50_parse_one in D. assert (v' = v) by congruence. subst v'.
           assert (X : Some w = Some (concat vss')) by (apply IH; eauto). injection X as ->. reflexivity.
      * split; [discriminate|]. intros (vss & F & ->). inversion F as [|? v' ? vss' D F']; subst. exfalso.
        assert (X : None = Some (concat vss')) by (apply IH; eauto). discriminate.
    + split; [discriminate|]. intros (vss & F & ->). inversion F as [|? v' ? vss' D F']; subst. apply C50_parse_one in D. congruence.
Qed.
Print Assumptions C50_parse_number_ranges.
(* ranges include both ends *)
Theorem C50_range_members : forall d1 d2 vs x, denotes (d1 ++ [45] ++ d2) vs -> digits d1 -> digits d2 ->
  (In x vs <-> decimal d1 <= x <= decimal d2).
Proof.
  intros d1 d2 vs x D D1 D2. destruct D as [([_ F] & _)|(a & b & E & A & B & L & ->)].
  - exfalso. apply Forall_app in F. destruct F as [_ F]. inversion F; subst. lia.
  - assert (a = d1 /\ b = d2) as [-> ->].
    { assert (X : span_digits (d1 ++ 45 :: d2) = (d1, 45 :: d2)) by (apply span_spec; split; [reflexivity|]; split; [apply D1|lia]).
      assert (Y : span_digits (d1 ++ 45 :: d2) = (a, 45 :: b)) by (apply span_spec; split; [exact E|]; split; [apply A|lia]).
      rewrite X in Y. injection Y as <- <-. auto. }
    rewrite in_map_iff. split.
    + intros (i & <- & I). apply in_seq in I. lia.
    + intro H. exists (N.to_nat (x - decimal d1)). split; [lia|]. apply in_seq. lia.
Qed.
Print Assumptions C50_range_members.
(* "10-12", "007" *)
Example C50_ex : parse_number_ranges [[49; 48; 45; 49; 50]; [48; 48; 55]] = Some [10; 11; 12; 7] /\
  denotes [49; 48; 45; 49; 50] [10; 11; 12] /\ parse_number_ranges [[51; 45; 51]] = None.
Proof. split; [reflexivity|]. split; [apply C50_parse_one; reflexivity|reflexivity]. Qed.
