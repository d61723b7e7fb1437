From Verif Require Import Base S_Bits M_Packet M_Bytes M_Sync M_Frame M_FramePackets L_Base L_Bits S_Packet L_Packet L_Frame S_FramePackets L_FramePackets.
Open Scope nat_scope.


Lemma stream_app : forall a b, stream (a ++ b) = stream a ++ stream b.
Proof. intros. unfold stream. rewrite map_app, concat_app. reflexivity. Qed.
Lemma stream_cons : forall a b, stream (a :: b) = wire_bytes a ++ stream b.
Proof. reflexivity. Qed.
Lemma with_pos_app : forall a b p, with_pos p (a ++ b) = with_pos p a ++ with_pos (p + length (stream a)) b.
Proof.
  induction a as [|w a IH]; intros b p; cbn [app with_pos]; [cbn; rewrite Nat.add_0_r; reflexivity|].
  rewrite IH, stream_cons, app_length, Nat.add_assoc. reflexivity.
Qed.
Lemma with_pos_ge : forall ws p x w, In (x, w) (with_pos p ws) -> p <= x.
Proof.
  induction ws as [|w0 ws IH]; intros p x w H; [destruct H|]. cbn [with_pos] in H. destruct H as [H|H]; [injection H as -> _; lia|].
  apply IH in H. lia.
Qed.
Lemma with_pos_split : forall ws p x w, In (x, w) (with_pos p ws) ->
  exists pre post, ws = pre ++ w :: post /\ x = p + length (stream pre).
Proof.
  induction ws as [|w0 ws IH]; intros p x w H; [destruct H|]. cbn [with_pos] in H. destruct H as [H|H].
  - injection H as -> ->. exists [], ws. split; [reflexivity|]. cbn. lia.
  - apply IH in H. destruct H as (pre & post & -> & ->). exists (w0 :: pre), post. split; [reflexivity|].
    rewrite stream_cons, app_length. lia.
Qed.
Lemma wb_len : forall w, wire_ok w -> 7 <= length (wire_bytes w).
Proof. intros w (_ & _ & H). unfold wire_bytes. rewrite app_length, encode_length. lia. Qed.
Lemma with_pos_lt : forall ws p x w, Forall wire_ok ws -> In (x, w) (with_pos p ws) -> x < p + length (stream ws).
Proof.
  intros ws p x w HW H. destruct (with_pos_split _ _ _ _ H) as (pre & post & -> & ->).
  apply Forall_app in HW. destruct HW as [_ HW]. inversion HW; subst. assert (L := wb_len w ltac:(assumption)).
  rewrite stream_app, stream_cons, !app_length. lia.
Qed.

(* carving a prefix of a packet stream *)
Lemma carve_stream : forall rem L, Forall wire_ok rem -> Forall telemetry rem -> L <= length (stream rem) ->
  exists dn rem', rem = dn ++ rem' /\ length (stream dn) <= L /\
    (forall w r, rem' = w :: r -> L < length (stream dn) + length (wire_bytes w)) /\
    carve (firstn L (stream rem)) (map pk dn) (Some (firstn (L - length (stream dn)) (stream rem'))).
Proof.
  induction rem as [|w rem IH]; intros L HW HT HL.
  - exists [], []. split; [reflexivity|]. split; [cbn; lia|]. split; [discriminate|]. cbn [stream map concat length] in *.
    replace L with 0 by (cbn in HL; lia). cbn. apply carve_short. cbn. lia.
  - inversion HW as [|? ? W1 W2]; subst. inversion HT as [|? ? T1 T2]; subst.
    destruct (wire_bytes_props w W1) as (PB & PL & PW & PH). assert (P7 := wb_len w W1).
    rewrite stream_cons in HL |- *. rewrite app_length in HL.
    destruct (Nat.lt_ge_cases L (length (wire_bytes w))) as [C|C].
    + exists [], (w :: rem). split; [reflexivity|]. split; [cbn; lia|]. split.
      { intros w' r E. injection E as <- _. cbn. exact C. }
      cbn [map stream concat length]. rewrite Nat.sub_0_r. fold (stream rem).
      assert (FL : length (firstn L (wire_bytes w ++ stream rem)) = L) by (rewrite firstn_length, app_length; lia).
      destruct (Nat.lt_ge_cases L 6) as [C6|C6]; [apply carve_short; lia|].
      apply carve_wait; [lia| |].
      * unfold tm_header. rewrite spec_header_firstn by (try rewrite app_length; lia). rewrite spec_header_app by lia. rewrite PH. exact T1.
      * rewrite FL. rewrite firstn_app_le by lia.
        assert (E : wire_len (firstn L (wire_bytes w)) = wire_len (wire_bytes w)).
        { rewrite <- !total_len_spec, spec_header_firstn by lia. reflexivity. }
        rewrite E. lia.
    + destruct (IH (L - length (wire_bytes w)) W2 T2) as (dn & rem' & E & D1 & D2 & D3); [lia|].
      exists (w :: dn), rem'. split; [cbn; congruence|]. rewrite stream_cons, app_length. split; [lia|]. split.
      { intros w' r E'. specialize (D2 w' r E'). lia. }
      assert (F : firstn L (wire_bytes w ++ stream rem) = wire_bytes w ++ firstn (L - length (wire_bytes w)) (stream rem)).
      { rewrite firstn_app. f_equal. apply firstn_all2. lia. }
      rewrite F. set (tail := firstn (L - length (wire_bytes w)) (stream rem)) in *.
      assert (WL : wire_len (wire_bytes w ++ tail) = length (wire_bytes w)).
      { rewrite wire_len_app by lia. congruence. }
      cbn [map]. replace (pk w) with (mkPacket (spec_header (wire_bytes w ++ tail)) (firstn (wire_len (wire_bytes w ++ tail)) (wire_bytes w ++ tail)) 0).
      2:{ rewrite WL, firstn_app_exact, spec_header_app by lia. rewrite PH. reflexivity. }
      apply carve_packet.
      * rewrite app_length. lia.
      * unfold tm_header. rewrite spec_header_app by lia. rewrite PH. exact T1.
      * rewrite WL, app_length. lia.
      * rewrite WL, skipn_app_exact. replace (L - (length (wire_bytes w) + length (stream dn))) with (L - length (wire_bytes w) - length (stream dn)) by lia. exact D3.
Qed.

Section RT.
Variables izone trailer : nat.
Variable ws : list wire_packet.
Hypothesis HW : Forall wire_ok ws.
Hypothesis HT : Forall telemetry ws.

Lemma carries_range : forall a fs e, carries izone trailer ws a fs e -> a <= e /\ (fs <> [] -> e <= length (stream ws)).
Proof.
  induction 1 as [|a n f fs e _ _ _ Hn _ _ _ HC [IH1 IH2]]; [split; [lia|congruence]|]. split; [lia|]. intros _.
  destruct fs; [|apply IH2; discriminate]. inversion HC; lia.
Qed.

(* from a synchronized state *)
Lemma synced_run : forall a fs e, carries izone trailer ws a fs e -> Forall (fun f => f_missing f = 0%N) fs ->
  a <= length (stream ws) ->
  forall pre rem, ws = pre ++ rem -> length (stream pre) <= a ->
  (forall w r, rem = w :: r -> a < length (stream pre) + length (wire_bytes w)) ->
  exists dn rem' st', rem = dn ++ rem' /\ length (stream pre) + length (stream dn) <= e /\
    (forall w r, rem' = w :: r -> e < length (stream pre) + length (stream dn) + length (wire_bytes w)) /\
    vc_run izone trailer (Some (firstn (a - length (stream pre)) (stream rem))) fs (map pk dn) st'.
Proof.
  intros a fs e C. induction C as [a|a n f fs e Hb HL NB Hn H46 HP HPT HC IH]; intros HM Ha pre rem EW Hpre Hrem.
  - exists [], rem. eexists. split; [reflexivity|]. cbn [stream map concat length]. split; [lia|]. split; [intros w r E; specialize (Hrem w r E); lia|].
    constructor.
  - inversion HM as [|? ? M0 HM']; subst x l.
    assert (HS : stream ws = stream pre ++ stream rem) by (rewrite EW; apply stream_app).
    assert (WR : Forall wire_ok rem /\ Forall telemetry rem).
    { rewrite EW in HW, HT. apply Forall_app in HW, HT. tauto. }
    assert (LS : length (stream ws) = length (stream pre) + length (stream rem)) by (rewrite HS, app_length; reflexivity).
    assert (CAT : firstn (a - length (stream pre)) (stream rem) ++ payload_of izone trailer f = firstn (a + n - length (stream pre)) (stream rem)).
    { rewrite HP, HS, skipn_app_ge by lia. replace (a + n - length (stream pre)) with (a - length (stream pre) + n) by lia.
      rewrite firstn_add. reflexivity. }
    destruct (carve_stream rem (a + n - length (stream pre)) (proj1 WR) (proj2 WR)) as (d1 & r1 & E1 & D1 & D2 & D3); [lia|].
    destruct (IH HM' ltac:(lia) (pre ++ d1) r1) as (d2 & r2 & st' & E2 & G1 & G2 & G3).
    + rewrite EW, E1, app_assoc. reflexivity.
    + rewrite stream_app, app_length. lia.
    + intros w r E. specialize (D2 w r E). rewrite stream_app, app_length. lia.
    + rewrite stream_app, app_length in G1, G2, G3.
      exists (d1 ++ d2), r2, st'. split; [rewrite E1, E2, app_assoc; reflexivity|]. rewrite stream_app, app_length.
      split; [lia|]. split; [intros w r E; specialize (G2 w r E); lia|]. rewrite map_app. eapply vc_cons.
      * apply vc_continue; [exact NB|exact M0|]. rewrite CAT. exact D3.
      * replace (a + n - length (stream pre) - length (stream d1)) with (a + n - (length (stream pre) + length (stream d1))) by lia. exact G3.
Qed.


Lemma filter_none : forall A (f : A -> bool) l, (forall x, In x l -> f x = false) -> filter f l = [].
Proof. induction l as [|x l IH]; intro H; [reflexivity|]. cbn. rewrite (H x) by (left; reflexivity). apply IH. intros; apply H; right; assumption. Qed.
Lemma filter_all : forall A (f : A -> bool) l, (forall x, In x l -> f x = true) -> filter f l = l.
Proof. induction l as [|x l IH]; intro H; [reflexivity|]. cbn. rewrite (H x) by (left; reflexivity). f_equal. apply IH. intros; apply H; right; assumption. Qed.
Lemma with_pos_snd : forall l p, map snd (with_pos p l) = l.
Proof. induction l as [|w l IH]; intro p; [reflexivity|]. cbn. rewrite IH. reflexivity. Qed.
Lemma with_pos_end : forall l p x w, In (x, w) (with_pos p l) -> x + length (wire_bytes w) <= p + length (stream l).
Proof.
  intros l p x w H. destruct (with_pos_split _ _ _ _ H) as (pre & post & -> & ->). rewrite stream_app, stream_cons, !app_length. lia.
Qed.

Lemma select : forall pre dn rem a e, ws = pre ++ dn ++ rem ->
  (forall x w, In (x, w) (with_pos 0 pre) -> x < a) ->
  a <= length (stream pre) -> length (stream pre) + length (stream dn) <= e ->
  (forall w r, rem = w :: r -> e < length (stream pre) + length (stream dn) + length (wire_bytes w)) ->
  map snd (filter (between a e) (with_pos 0 ws)) = dn.
Proof.
  intros pre dn rem a e -> H1 H2 H3 H4. rewrite !with_pos_app, !filter_app. cbn [Nat.add].
  rewrite (filter_none _ _ (with_pos 0 pre)).
  2:{ intros [x w] I. apply H1 in I. unfold between. cbn [fst snd]. replace (a <=? x) with false by (symmetry; apply Nat.leb_gt; lia). reflexivity. }
  rewrite (filter_all _ _ (with_pos (length (stream pre)) dn)).
  2:{ intros [x w] I. assert (A := with_pos_ge _ _ _ _ I). assert (B := with_pos_end _ _ _ _ I).
      unfold between. cbn [fst snd]. apply andb_true_intro. split; apply Nat.leb_le; lia. }
  rewrite (filter_none _ _ (with_pos (_ + _) rem)).
  2:{ intros [x w] I. unfold between. cbn [fst snd]. apply andb_false_intro2. apply Nat.leb_gt.
      destruct rem as [|w0 r]; [destruct I|]. specialize (H4 w0 r eq_refl). cbn [with_pos] in I. destruct I as [I|I].
      - injection I as <- <-. lia.
      - apply with_pos_ge in I. lia. }
  cbn [app]. rewrite app_nil_r. apply with_pos_snd.
Qed.

Lemma unsynced_run : forall a fs e, carries izone trailer ws a fs e -> Forall (fun f => f_missing f = 0%N) (tl fs) ->
  exists st', vc_run izone trailer None fs (map pk (map snd (filter (between a e) (with_pos 0 ws)))) st'.
Proof.
  intros a fs e C. induction C as [a|a n f fs e Hb HL NB Hn H46 HP HPT HC IH]; intros HM.
  - exists None. rewrite filter_none; [constructor|]. intros [x w] I. unfold between. cbn [fst snd].
    assert (WO : wire_ok w). { apply with_pos_split in I. destruct I as (p & q & E & _). rewrite E in HW. apply Forall_app in HW. destruct HW as [_ X]. inversion X; assumption. }
    apply wb_len in WO. destruct (a <=? x) eqn:E; [|reflexivity]. apply Nat.leb_le in E. cbn. apply Nat.leb_gt. lia.
  - cbn [tl] in HM. assert (PL : length (payload_of izone trailer f) = n). { rewrite HP, firstn_length, skipn_length. lia. }
    destruct HPT as [(x & [w Hx] & Rx & Min & PT)|[None2 PT]].
    + destruct (with_pos_split _ _ _ _ Hx) as (pre & post & EW & EX). cbn [Nat.add] in EX.
      assert (WR : Forall wire_ok (w :: post) /\ Forall telemetry (w :: post)).
      { clear -EW HW HT. rewrite EW in HW, HT. apply Forall_app in HW, HT. tauto. }
      set (rem := w :: post) in *. assert (NR : rem = w :: post) by reflexivity. clearbody rem.
      assert (HS : stream ws = stream pre ++ stream rem) by (rewrite EW; apply stream_app).
      assert (LS : length (stream ws) = length (stream pre) + length (stream rem)) by (rewrite HS, app_length; reflexivity).
      assert (ST : has_start izone trailer f = true).
      { unfold has_start. rewrite PT, PL. apply andb_true_intro. split; [apply andb_true_intro; split; apply negb_true_iff, Nat.eqb_neq; lia|apply Nat.leb_le; lia]. }
      assert (CUT : skipn (pointer_of izone trailer f) (payload_of izone trailer f) = firstn (a + n - x) (stream rem)).
      { rewrite HP, PT, skipn_firstn_comm, skipn_skipn, HS. replace (x - a + a) with (length (stream pre)) by lia.
        rewrite skipn_app_exact. f_equal. lia. }
      destruct (carve_stream rem (a + n - x) (proj1 WR) (proj2 WR)) as (d1 & r1 & E1 & D1 & D2 & D3); [lia|].
      destruct (synced_run _ _ _ HC HM ltac:(lia) (pre ++ d1) r1) as (d2 & r2 & st' & E2 & G1 & G2 & G3).
      * rewrite EW, E1, app_assoc. reflexivity.
      * rewrite stream_app, app_length. lia.
      * intros w' r E. specialize (D2 w' r E). rewrite stream_app, app_length. lia.
      * rewrite stream_app, app_length in G1, G2, G3.
        exists st'. rewrite (select pre (d1 ++ d2) r2).
        -- rewrite map_app. eapply vc_cons; [apply vc_start; [exact NB|left; reflexivity|exact ST|rewrite CUT; exact D3]|].
           replace (a + n - x - length (stream d1)) with (a + n - (length (stream pre) + length (stream d1))) by lia. exact G3.
        -- rewrite EW, E1, E2, <- app_assoc. reflexivity.
        -- intros y w' I. assert (Y : starts_at ws y). { exists w'. rewrite EW, with_pos_app. apply in_or_app. left. exact I. }
           destruct (Nat.lt_ge_cases y a) as [Z|Z]; [exact Z|]. specialize (Min y Y Z).
           assert (WP : Forall wire_ok pre) by (clear -EW HW; rewrite EW in HW; apply Forall_app in HW; tauto).
           apply (with_pos_lt _ _ _ _ WP) in I. lia.
        -- lia.
        -- rewrite stream_app, app_length. lia.
        -- intros w' r E. rewrite stream_app, app_length. specialize (G2 w' r E). lia.
    + destruct IH as [st' IH]; [destruct fs; [constructor|inversion HM; assumption]|].
      exists st'. replace (filter (between a e) (with_pos 0 ws)) with (filter (between (a + n) e) (with_pos 0 ws)).
      * change (map pk (map snd (filter (between (a + n) e) (with_pos 0 ws)))) with ([] ++ map pk (map snd (filter (between (a + n) e) (with_pos 0 ws)))).
        eapply vc_cons; [|exact IH]. apply vc_skip; [exact NB|left; reflexivity|]. unfold has_start. rewrite PT. reflexivity.
      * apply filter_ext_in. intros [y w] I. unfold between. cbn [fst snd]. f_equal.
        assert (Y : starts_at ws y) by (exists w; exact I). destruct (None2 y Y) as [Z|Z].
        -- replace (a <=? y) with false by (symmetry; apply Nat.leb_gt; lia). apply Nat.leb_gt. lia.
        -- replace (a <=? y) with true by (symmetry; apply Nat.leb_le; lia). apply Nat.leb_le. lia.
Qed.
Lemma carries_frames_ok : forall a fs e, carries izone trailer ws a fs e -> frames_ok izone trailer fs.
Proof. induction 1; constructor; auto. Qed.
End RT.

(* ---- provenance ---- *)
Lemma carve_parts : forall b ps r, carve b ps r ->
  exists junk, b = concat (map p_data ps) ++ junk /\ Forall proper ps /\ (forall c, r = Some c -> junk = c).
Proof.
  induction 1 as [b L|b L NT|b L T W|b ps r L T W C (junk & E & FP & J)].
  - exists b. split; [reflexivity|]. split; [constructor|]. intros c X. injection X as <-. reflexivity.
  - exists b. split; [reflexivity|]. split; [constructor|]. discriminate.
  - exists b. split; [reflexivity|]. split; [constructor|]. intros c X. injection X as <-. reflexivity.
  - exists junk. split.
    + cbn [map concat p_data]. rewrite <- app_assoc, <- E, firstn_skipn. reflexivity.
    + split; [|exact J]. constructor; [|exact FP]. unfold proper. cbn [p_data p_header].
      assert (G := wire_len_ge b). assert (LF : length (firstn (wire_len b) b) = wire_len b) by (rewrite firstn_length; lia).
      assert (SH : spec_header (firstn (wire_len b) b) = spec_header b) by (apply spec_header_firstn; lia).
      rewrite LF. split; [lia|]. split; [congruence|]. split; [rewrite <- (total_len_spec (firstn _ _)), SH, total_len_spec; reflexivity|]. unfold tm_header. rewrite SH. exact T.
Qed.

Section Prov.
Variables izone trailer : nat.
Notation pay := (payload_of izone trailer).
Notation linked := (linked izone trailer).
Notation zone_from := (zone_from izone trailer).
Definition pending (fs : list frame) (st : option (list N)) : Prop :=
  forall c, st = Some c -> exists A f0 rest dn, fs = A ++ f0 :: rest /\ linked f0 rest /\
    zone_from f0 rest = concat (map p_data dn) ++ c /\ Forall proper dn.
Definition origin (fs : list frame) (p : packet) : Prop :=
  exists A f0 rest B dn suffix, fs = A ++ (f0 :: rest) ++ B /\ linked f0 rest /\
    zone_from f0 rest = concat (map p_data dn) ++ p_data p ++ suffix /\ Forall proper dn /\ proper p.
Lemma origin_app : forall fs gs p, origin fs p -> origin (fs ++ gs) p.
Proof.
  intros fs gs p (A & f0 & rest & B & dn & s & -> & H). exists A, f0, rest, (B ++ gs), dn, s. split; [|exact H].
  rewrite <- !app_assoc. reflexivity.
Qed.
Lemma origin_from : forall A f0 rest dn ps junk, linked f0 rest -> zone_from f0 rest = concat (map p_data dn) ++ concat (map p_data ps) ++ junk ->
  Forall proper dn -> Forall proper ps -> Forall (origin (A ++ f0 :: rest)) ps.
Proof.
  intros A f0 rest dn ps junk HL HZ HD HP. apply Forall_forall. intros p I. apply in_split in I. destruct I as (l1 & l2 & ->).
  apply Forall_app in HP. destruct HP as [P1 P2]. inversion P2; subst.
  exists A, f0, rest, [], (dn ++ l1), (concat (map p_data l2) ++ junk). split; [rewrite app_nil_r; reflexivity|]. split; [exact HL|].
  split; [|split; [apply Forall_app; auto|assumption]]. rewrite HZ, map_app, !map_app, !concat_app. cbn [map concat]. rewrite <- !app_assoc. reflexivity.
Qed.
Lemma step_prov : forall fs st f ps st', pending fs st -> vc_step izone trailer st f ps st' ->
  Forall (origin (fs ++ [f])) ps /\ pending (fs ++ [f]) st'.
Proof.
  intros fs st f ps st' HP H. inversion H as [? ? B|c ? ? ? NB M C|? ? ? ? NB N HS C|? ? NB N HS]; subst.
  - split; [constructor|]. intros c X. discriminate.
  - destruct (HP c eq_refl) as (A & f0 & rest & dn & -> & (L1 & L2 & L3) & HZ & HD).
    destruct (carve_parts _ _ _ C) as (junk & E & FP & J).
    assert (L' : linked f0 (rest ++ [f])).
    { split; [|split; [|exact L3]]. - change (f0 :: rest ++ [f]) with ((f0 :: rest) ++ [f]). apply Forall_app. auto. - apply Forall_app; auto. }
    assert (Z' : zone_from f0 (rest ++ [f]) = concat (map p_data dn) ++ concat (map p_data ps) ++ junk).
    { unfold zone_from in *. rewrite map_app, concat_app. cbn [map concat]. rewrite app_nil_r, app_assoc, HZ, <- app_assoc, E. reflexivity. }
    rewrite <- app_assoc. cbn [app]. split.
    + eapply origin_from; eassumption.
    + intros c' X. exists A, f0, (rest ++ [f]), (dn ++ ps). split; [reflexivity|]. split; [exact L'|].
      split; [|apply Forall_app; auto]. rewrite Z', map_app, concat_app, <- app_assoc, (J c' X). reflexivity.
  - destruct (carve_parts _ _ _ C) as (junk & E & FP & J).
    assert (L' : linked f []) by (split; [constructor; [assumption|constructor]|split; [constructor|exact HS]]).
    assert (Z' : zone_from f [] = concat (map p_data []) ++ concat (map p_data ps) ++ junk).
    { unfold zone_from. cbn [map concat app]. rewrite app_nil_r. exact E. }
    split.
    + eapply origin_from; try eassumption. constructor.
    + intros c' X. exists fs, f, [], ps. split; [reflexivity|]. split; [exact L'|]. split; [|exact FP]. rewrite Z', (J c' X). reflexivity.
  - split; [constructor|]. intros c X. discriminate.
Qed.
Lemma run_prov : forall fs pre st ps st', pending pre st -> vc_run izone trailer st fs ps st' -> Forall (origin (pre ++ fs)) ps.
Proof.
  induction fs as [|f fs IH]; intros pre st ps st' HP R; inversion R; subst; [constructor|].
  match goal with X : vc_step _ _ _ _ _ _ |- _ => destruct (step_prov _ _ _ _ _ HP X) as [O P] end.
  apply Forall_app. split.
  - eapply Forall_impl; [|exact O]. intros p Hp. change (f :: fs) with ([f] ++ fs). rewrite app_assoc. apply origin_app. exact Hp.
  - change (f :: fs) with ([f] ++ fs). rewrite app_assoc. eapply IH; eassumption.
Qed.
End Prov.

(* ---- contributions as a function of the channel's history ---- *)
Section Contrib.
Variables izone trailer : nat.
Fixpoint track (t : tracker) (hist : list frame) : tracker :=
  match hist with
  | [] => t
  | f :: hist => match fp_frame izone trailer t f with Val (_, t') => track t' hist | Panic => t end
  end.
Definition contrib (hist : list frame) (f : frame) : list packet :=
  match fp_frame izone trailer (track tracker_new hist) f with Val (ps, _) => ps | Panic => [] end.
Lemma track_app : forall hist f t, frames_ok izone trailer (hist ++ [f]) -> cache_ok (abs t) ->
  exists ps t', fp_frame izone trailer (track t hist) f = Val (ps, t') /\ track t (hist ++ [f]) = t' /\ cache_ok (abs t').
Proof.
  induction hist as [|g hist IH]; intros f t HF HC.
  - inversion HF as [|? ? [Hb HL] _]; subst. destruct (frame_step izone trailer t f Hb HL HC) as (ps & t' & E & V).
    exists ps, t'. cbn [track app]. rewrite E. split; [reflexivity|]. split; [reflexivity|]. eapply vc_step_ok; eassumption.
  - cbn [app] in HF. inversion HF as [|? ? [Hb HL] HF']; subst. destruct (frame_step izone trailer t g Hb HL HC) as (ps & t' & E & V).
    cbn [track app]. rewrite E. apply IH; [exact HF'|]. eapply vc_step_ok; eassumption.
Qed.
Lemma track_ok : forall hist t, frames_ok izone trailer hist -> cache_ok (abs t) -> cache_ok (abs (track t hist)).
Proof.
  induction hist as [|g hist IH]; intros t HF HC; [exact HC|]. inversion HF as [|? ? [Hb HL] HF']; subst.
  destruct (frame_step izone trailer t g Hb HL HC) as (ps & t' & E & V). cbn [track]. rewrite E. apply IH; [exact HF'|]. eapply vc_step_ok; eassumption.
Qed.
(* the state of all channels after the frames [done] *)
Definition gstate (done : list frame) (v : N) : option (list N) := abs (track tracker_new (filter (is_chan v) done)).
Lemma frames_ok_filter : forall p fs, frames_ok izone trailer fs -> frames_ok izone trailer (filter p fs).
Proof. unfold frames_ok. intros p fs H. apply Forall_forall. intros f I. apply filter_In in I. rewrite Forall_forall in H. apply H. tauto. Qed.
Lemma contrib_mrun : forall fs dn, frames_ok izone trailer (dn ++ fs) ->
  mrun izone trailer (gstate dn) fs
    (map (fun i => contrib (filter (is_chan (chan (nth i (dn ++ fs) (mkFrame (mkVcdu 0 0 0 0) 0 None [])))) (firstn i (dn ++ fs)))
                    (nth i (dn ++ fs) (mkFrame (mkVcdu 0 0 0 0) 0 None []))) (seq (length dn) (length fs))).
Proof.
  induction fs as [|f fs IH]; intros dn HF; [constructor|].
  cbn [length seq map]. rewrite app_nth2, Nat.sub_diag by lia. cbn [nth]. rewrite firstn_app_exact.
  assert (HF1 : frames_ok izone trailer (filter (is_chan (chan f)) dn)).
  { apply frames_ok_filter. unfold frames_ok in HF |- *. apply Forall_app in HF. tauto. }
  assert (HFf : bytes_ok (f_data f) /\ long_enough izone trailer f). { unfold frames_ok in HF. apply Forall_app in HF. destruct HF as [_ X]. inversion X. assumption. }
  destruct (frame_step izone trailer (track tracker_new (filter (is_chan (chan f)) dn)) f (proj1 HFf) (proj2 HFf)) as (ps & t' & E & V).
  { apply track_ok; [exact HF1|exact I]. }
  eapply mrun_cons with (st' := abs t') (g' := gstate (dn ++ [f])).
  - unfold contrib. rewrite E. exact V.
  - intro v. unfold gstate. rewrite filter_app. cbn [filter]. unfold is_chan at 2. destruct (N.eqb_spec (chan f) v) as [<-|NE].
    + rewrite N.eqb_refl. destruct (track_app (filter (is_chan (chan f)) dn) f tracker_new) as (ps2 & t2 & E2 & T2 & _).
      * apply Forall_app. split; [exact HF1|constructor; [exact HFf|constructor]].
      * exact I.
      * rewrite E in E2. injection E2 as <- <-. rewrite T2. reflexivity.
    + rewrite app_nil_r. destruct (N.eqb_spec v (chan f)); [congruence|reflexivity].
  - specialize (IH (dn ++ [f])). rewrite <- app_assoc in IH. cbn [app] in IH. rewrite app_length in IH. cbn [length] in IH.
    rewrite Nat.add_1_r in IH. apply IH. exact HF.
Qed.
End Contrib.
