From Verif Require Import Base S_Bits S_Packet S_Pn S_Sync S_Frame S_FramePackets S_ReedSolomon S_Pipeline S_Loss
  M_Reader M_Packet M_Bytes M_Sync M_Pn M_Frame M_FramePackets M_ReedSolomon M_RsPipeline M_Pipeline
  L_Base L_Bits L_Packet L_Pn L_Frame L_FramePackets L_FramePackets2.
Open Scope nat_scope.

Lemma arrived_lt : forall l a y, y < a -> arrived a l y = false.
Proof.
  induction l as [|[n x] l IH]; intros a y H; [reflexivity|]. cbn [arrived].
  replace (a <=? y) with false by (symmetry; apply Nat.leb_gt; exact H). cbn [andb]. apply IH. lia.
Qed.

Section Run.
Variables izone trailer : nat.
Variable ws : list wire_packet.
Hypothesis HW : Forall wire_ok ws.
Hypothesis HT : Forall telemetry ws.

(* [seen]: a frame of the channel has been found before; [due]: the next one found must report a loss *)
Inductive lossy : bool -> bool -> nat -> list (nat * fate) -> list frame -> Prop :=
| lossy_nil : forall seen due a, lossy seen due a [] []
| lossy_lost : forall seen due a n zs fs, 0 < n -> a + n <= length (stream ws) ->
    lossy seen seen (a + n) zs fs -> lossy seen due a ((n, Lost) :: zs) fs
| lossy_damaged : forall seen due a n f zs fs, 0 < n -> a + n <= length (stream ws) -> bad_frame f ->
    lossy true false (a + n) zs fs -> lossy seen due a ((n, Damaged) :: zs) (f :: fs)
| lossy_arrives : forall seen due a n f zs fs, 0 < n -> a + n <= length (stream ws) -> n <= 2046 ->
    ~ bad_frame f -> (f_missing f = 0%N <-> due = false) ->
    payload_of izone trailer f = firstn n (skipn a (stream ws)) ->
    pointer_correct ws a n (pointer_of izone trailer f) ->
    lossy true false (a + n) zs fs -> lossy seen due a ((n, Arrives) :: zs) (f :: fs).

(* what the decoder has in hand: the bytes x0 .. a-1, the beginning of a packet *)
Definition inhand (seen due : bool) (st : option (list N)) (a x0 : nat) : Prop :=
  (seen = false -> st = None) /\
  ((x0 = a /\ (st = None \/ due = true)) \/
   (due = false /\ exists pre rem, ws = pre ++ rem /\ st = Some (firstn (a - x0) (stream rem)) /\
      x0 = length (stream pre) /\ x0 <= a /\ forall w r, rem = w :: r -> a < x0 + length (wire_bytes w))).

Definition known (x0 a : nat) (zs : list (nat * fate)) (y : nat) : bool := ((x0 <=? y) && (y <? a)) || arrived a zs y.

Lemma whole_first : forall g x w, wire_ok w -> g x = false -> whole g (x, w) = false.
Proof.
  intros g x w H E. unfold whole. cbn [fst snd]. apply wb_len in H. destruct (length (wire_bytes w)); [lia|]. cbn. rewrite E. reflexivity.
Qed.
Lemma whole_byte : forall g x w y, x <= y < x + length (wire_bytes w) -> g y = false -> whole g (x, w) = false.
Proof.
  intros g x w y H E. destruct (whole g (x, w)) eqn:W; [|reflexivity]. unfold whole in W. rewrite forallb_forall in W.
  rewrite (W y) in E; [discriminate|]. apply in_seq. exact H.
Qed.
Lemma whole_all : forall g x w, (forall y, x <= y < x + length (wire_bytes w) -> g y = true) -> whole g (x, w) = true.
Proof. intros g x w H. apply forallb_forall. intros y I. apply in_seq in I. apply H. exact I. Qed.
Lemma whole_ext : forall g h x w, (forall y, x <= y -> g y = h y) -> whole g (x, w) = whole h (x, w).
Proof.
  intros g h x w H. unfold whole. cbn [fst snd]. generalize (length (wire_bytes w)). intro n. revert x H.
  induction n as [|n IH]; intros x H; [reflexivity|]. cbn. rewrite H, IH; [reflexivity| |lia]. intros. apply H. lia.
Qed.
Lemma in_ok : forall x w, In (x, w) (with_pos 0 ws) -> wire_ok w.
Proof. intros x w I. apply with_pos_split in I. destruct I as (p & q & E & _). rewrite E in HW. apply Forall_app in HW. destruct HW as [_ X]. inversion X; assumption. Qed.

Definition chosen (g : nat -> bool) : list packet := map pk (map snd (filter (whole g) (with_pos 0 ws))).

(* g and h agree on what matters *)
Lemma chosen_ext : forall g h, (forall x w, In (x, w) (with_pos 0 ws) -> whole g (x, w) = whole h (x, w)) -> chosen g = chosen h.
Proof. intros g h H. unfold chosen. do 2 f_equal. apply filter_ext_in. intros [x w] I. apply H. exact I. Qed.

Lemma chosen_split : forall pre dn rem g h, ws = pre ++ dn ++ rem ->
  (forall x w, In (x, w) (with_pos 0 pre) -> whole g (x, w) = false /\ whole h (x, w) = false) ->
  (forall y, length (stream pre) <= y < length (stream pre) + length (stream dn) -> g y = true /\ h y = false) ->
  (forall y, length (stream pre) + length (stream dn) <= y -> g y = h y) ->
  chosen g = map pk dn ++ chosen h.
Proof.
  intros pre dn rem g h EW H1 H2 H3. unfold chosen. rewrite EW. rewrite !with_pos_app, !filter_app. cbn [Nat.add].
  assert (WD : Forall wire_ok dn). { rewrite EW in HW. apply Forall_app in HW. destruct HW as [_ X]. apply Forall_app in X. tauto. }
  rewrite (filter_none _ (whole g) (with_pos 0 pre)) by (intros [x w] I; apply H1; exact I).
  rewrite (filter_none _ (whole h) (with_pos 0 pre)) by (intros [x w] I; apply H1; exact I).
  rewrite (filter_all _ (whole g) (with_pos (length (stream pre)) dn)).
  2:{ intros [x w] I. assert (A := with_pos_ge _ _ _ _ I). assert (B := with_pos_end _ _ _ _ I). apply whole_all. intros y Hy. apply H2. lia. }
  rewrite (filter_none _ (whole h) (with_pos (length (stream pre)) dn)).
  2:{ intros [x w] I. assert (A := with_pos_ge _ _ _ _ I). assert (B := with_pos_lt _ _ _ _ WD I). apply whole_first; [|apply H2; lia].
      apply with_pos_split in I. destruct I as (p & q & E & _). rewrite E in WD. apply Forall_app in WD. destruct WD as [_ X]. inversion X; assumption. }
  cbn [app]. rewrite !map_app, with_pos_snd. f_equal. do 2 f_equal. apply filter_ext_in. intros [x w] I. apply with_pos_ge in I.
  apply whole_ext. intros y Hy. apply H3. lia.
Qed.

Lemma known_hd : forall x0 a n zs y, x0 <= a -> known x0 a ((n, Arrives) :: zs) y = known x0 (a + n) zs y.
Proof.
  intros x0 a n zs y H. unfold known. cbn [arrived].
  destruct (Nat.leb_spec x0 y), (Nat.ltb_spec y a), (Nat.leb_spec a y), (Nat.ltb_spec y (a + n)); try lia; cbn [andb orb]; try reflexivity.
Qed.
Lemma known_off : forall x0 a n x zs y, x0 <= a -> x <> Arrives -> known x0 a ((n, x) :: zs) y = ((x0 <=? y) && (y <? a)) || known (a + n) (a + n) zs y.
Proof.
  intros x0 a n x zs y H NA. unfold known. cbn [arrived].
  destruct (Nat.leb_spec x0 y), (Nat.ltb_spec y a), (Nat.leb_spec a y), (Nat.ltb_spec y (a + n)), (Nat.leb_spec (a + n) y); try lia; cbn [andb orb]; try reflexivity;
  try (destruct x; [congruence| |]); try reflexivity; symmetry; apply arrived_lt; lia.
Qed.

(* the frame is gone, and with it the packet at hand *)
Lemma gone : forall seen due st a x0 n x zs, inhand seen due st a x0 -> 0 < n -> x <> Arrives ->
  chosen (known x0 a ((n, x) :: zs)) = chosen (known (a + n) (a + n) zs).
Proof.
  intros seen due st a x0 n x zs [_ I] Hn NA. apply chosen_ext. intros y w Iw. assert (WO := in_ok _ _ Iw).
  assert (L : x0 <= a) by (destruct I as [[-> _]|(_ & pre & rem & _ & _ & _ & L & _)]; lia).
  destruct (Nat.lt_ge_cases y a) as [C|C].
  - rewrite (whole_first (known (a + n) (a + n) zs)); [|exact WO|].
    2:{ unfold known. rewrite arrived_lt by lia. replace (a + n <=? y) with false by (symmetry; apply Nat.leb_gt; lia). reflexivity. }
    destruct (Nat.lt_ge_cases y x0) as [D|D].
    + apply whole_first; [exact WO|]. rewrite known_off by assumption. replace (x0 <=? y) with false by (symmetry; apply Nat.leb_gt; lia).
      cbn [andb orb]. unfold known. rewrite arrived_lt by lia. replace (a + n <=? y) with false by (symmetry; apply Nat.leb_gt; lia). reflexivity.
    + destruct I as [[-> _]|(_ & pre & rem & EW & _ & EX & _ & LR)]; [lia|].
      (* y is at or behind x0, before a: it is the packet at x0, which reaches beyond a *)
      apply whole_byte with (y := a).
      2:{ rewrite known_off by assumption. replace (a <? a) with false by (symmetry; apply Nat.ltb_irrefl). rewrite andb_false_r. cbn [orb].
          unfold known. rewrite arrived_lt by lia. replace (a + n <=? a) with false by (symmetry; apply Nat.leb_gt; lia). reflexivity. }
      rewrite EW, with_pos_app in Iw. apply in_app_or in Iw. cbn [Nat.add] in Iw. destruct Iw as [Iw|Iw].
      * apply with_pos_lt in Iw; [lia|]. rewrite EW in HW. apply Forall_app in HW. tauto.
      * destruct rem as [|w0 r]; [destruct Iw|]. specialize (LR w0 r eq_refl). cbn [with_pos] in Iw. destruct Iw as [E|Iw].
        -- injection E as <- <-. lia.
        -- apply with_pos_ge in Iw. lia.
  - apply whole_ext. intros z Hz. rewrite known_off by assumption. replace (z <? a) with false by (symmetry; apply Nat.ltb_ge; lia).
    rewrite andb_false_r. reflexivity.
Qed.

Lemma loss_run : forall seen due a zs fs, lossy seen due a zs fs ->
  forall st x0, inhand seen due st a x0 -> exists st', vc_run izone trailer st fs (chosen (known x0 a zs)) st'.
Proof.
  induction 1 as [seen due a|seen due a n zs fs Hn HL H IH|seen due a n f zs fs Hn HL HB H IH|seen due a n f zs fs Hn HL H46 NB HM HP HPT H IH]; intros st x0 I.
  - exists st. replace (chosen (known x0 a [])) with (@nil packet); [constructor|]. symmetry. unfold chosen.
    rewrite filter_none; [reflexivity|]. intros [y w] Iw. assert (WO := in_ok _ _ Iw). destruct I as [_ I].
    destruct (Nat.lt_ge_cases y x0) as [D|D].
    { apply whole_first; [exact WO|]. unfold known. cbn [arrived]. rewrite orb_false_r. replace (x0 <=? y) with false by (symmetry; apply Nat.leb_gt; lia). reflexivity. }
    destruct I as [[-> _]|(_ & pre & rem & EW & _ & EX & _ & LR)].
    { apply whole_first; [exact WO|]. unfold known. cbn [arrived]. rewrite orb_false_r. replace (y <? a) with false by (symmetry; apply Nat.ltb_ge; lia). rewrite andb_false_r. reflexivity. }
    rewrite EW, with_pos_app in Iw. apply in_app_or in Iw. cbn [Nat.add] in Iw. destruct Iw as [Iw|Iw].
    + apply with_pos_lt in Iw; [lia|]. rewrite EW in HW. apply Forall_app in HW. tauto.
    + destruct rem as [|w0 r]; [destruct Iw|]. specialize (LR w0 r eq_refl).
      assert (Z : known x0 a [] (Nat.max y a) = false).
      { unfold known. cbn [arrived]. rewrite orb_false_r. replace (Nat.max y a <? a) with false by (symmetry; apply Nat.ltb_ge; lia). rewrite andb_false_r. reflexivity. }
      apply whole_byte with (y := Nat.max y a); [|exact Z]. apply wb_len in WO.
      cbn [with_pos] in Iw. destruct Iw as [E|Iw].
      * injection E as <- <-. lia.
      * apply with_pos_ge in Iw. lia.
  - rewrite (gone _ _ _ _ _ _ _ _ I Hn) by discriminate. apply IH. destruct I as [I1 _]. split; [exact I1|]. left. split; [reflexivity|].
    destruct seen; [right; reflexivity|left; apply I1; reflexivity].
  - rewrite (gone _ _ _ _ _ _ _ _ I Hn) by discriminate. destruct (IH None (a + n)) as [st' R].
    { split; [discriminate|]. left. auto. }
    exists st'. change (chosen (known (a + n) (a + n) zs)) with ([] ++ chosen (known (a + n) (a + n) zs)).
    eapply vc_cons; [apply vc_bad; exact HB|exact R].
  - assert (PL : length (payload_of izone trailer f) = n). { rewrite HP, firstn_length, skipn_length. lia. }
    destruct I as [I1 [[EX I2]|(ED & pre & rem & EW & ES & EX & LX & LR)]].
    + (* starting afresh *)
      assert (FRESH : st = None \/ f_missing f <> 0%N).
      { destruct I2 as [I2|I2]; [left; exact I2|right]. intro Z. apply HM in Z. congruence. }
      subst x0. destruct HPT as [(x & [w Hx] & Rx & Min & PT)|[None2 PT]].
      * destruct (with_pos_split _ _ _ _ Hx) as (pre & post & EW & EX). cbn [Nat.add] in EX.
        assert (WR : Forall wire_ok (w :: post) /\ Forall telemetry (w :: post)).
        { clear -EW HW HT. rewrite EW in HW, HT. apply Forall_app in HW, HT. tauto. }
        set (rem := w :: post) in *. assert (NR : rem = w :: post) by reflexivity. clearbody rem.
        assert (HS : stream ws = stream pre ++ stream rem) by (rewrite EW; apply stream_app).
        assert (LS : length (stream ws) = length (stream pre) + length (stream rem)) by (rewrite HS, app_length; reflexivity).
        assert (ST : has_start izone trailer f = true).
        { unfold has_start. rewrite PT, PL. apply andb_true_intro. split; [apply andb_true_intro; split; apply negb_true_iff, Nat.eqb_neq; lia|apply Nat.leb_le; lia]. }
        assert (CUT : skipn (pointer_of izone trailer f) (payload_of izone trailer f) = firstn (a + n - x) (stream rem)).
        { rewrite HP, PT, skipn_firstn_comm, skipn_skipn, HS. replace (x - a + a) with (length (stream pre)) by lia.
          rewrite skipn_app_exact. f_equal. lia. }
        destruct (carve_stream rem (a + n - x) (proj1 WR) (proj2 WR)) as (d1 & r1 & E1 & D1 & D2 & D3); [lia|].
        destruct (IH (Some (firstn (a + n - x - length (stream d1)) (stream r1))) (x + length (stream d1))) as [st' R].
        { split; [discriminate|]. right. split; [reflexivity|]. exists (pre ++ d1), r1. split; [rewrite EW, E1, app_assoc; reflexivity|].
          split; [do 2 f_equal; lia|]. rewrite stream_app, app_length. split; [lia|]. split; [lia|]. intros w' r E. specialize (D2 w' r E). lia. }
        exists st'. rewrite (chosen_split pre d1 r1 _ (known (x + length (stream d1)) (a + n) zs)).
        -- eapply vc_cons; [apply vc_start; [exact NB|exact FRESH|exact ST|rewrite CUT; exact D3]|exact R].
        -- rewrite EW, E1. reflexivity.
        -- intros y w' Iw.
           assert (Y : y < a).
           { destruct (Nat.lt_ge_cases y a) as [Z|Z]; [exact Z|].
             assert (SA : starts_at ws y). { exists w'. rewrite EW, with_pos_app. apply in_or_app. left. exact Iw. } specialize (Min y SA Z).
             assert (WP : Forall wire_ok pre) by (clear -EW HW; rewrite EW in HW; apply Forall_app in HW; tauto).
             apply (with_pos_lt _ _ _ _ WP) in Iw. lia. }
           assert (WO : wire_ok w'). { apply (in_ok y). rewrite EW, with_pos_app. apply in_or_app. left. exact Iw. }
           split; (apply whole_first; [exact WO|]); unfold known; rewrite arrived_lt by lia; rewrite orb_false_r; apply andb_false_intro1, Nat.leb_gt; lia.
        -- intros y Hy. rewrite known_hd by lia. unfold known. rewrite !(arrived_lt zs) by lia. rewrite !orb_false_r. split.
           ++ apply andb_true_intro. split; [apply Nat.leb_le; lia|apply Nat.ltb_lt; lia].
           ++ apply andb_false_intro1, Nat.leb_gt. lia.
        -- intros y Hy. rewrite known_hd by lia. unfold known. f_equal. f_equal.
           transitivity true; [|symmetry]; apply Nat.leb_le; lia.
      * destruct (IH None (a + n)) as [st' R]; [split; [discriminate|]; left; auto|].
        exists st'. replace (chosen (known a a ((n, Arrives) :: zs))) with ([] ++ chosen (known (a + n) (a + n) zs)).
        -- eapply vc_cons; [apply vc_skip; [exact NB|exact FRESH|]|exact R]. unfold has_start. rewrite PT. reflexivity.
        -- cbn [app]. apply chosen_ext. intros y w Iw. assert (WO := in_ok _ _ Iw). assert (SA : starts_at ws y) by (exists w; exact Iw).
           destruct (None2 y SA) as [Z|Z].
           ++ rewrite !whole_first; try reflexivity; try exact WO; unfold known; rewrite arrived_lt by lia; rewrite orb_false_r; apply andb_false_intro1, Nat.leb_gt; lia.
           ++ apply whole_ext. intros z Hz. rewrite known_hd by lia. unfold known. f_equal.
              replace (z <? a + n) with false by (symmetry; apply Nat.ltb_ge; lia). rewrite !andb_false_r. reflexivity.
    + (* going on *)
      assert (M0 : f_missing f = 0%N) by (apply HM; exact ED).
      assert (HS : stream ws = stream pre ++ stream rem) by (rewrite EW; apply stream_app).
      assert (WR : Forall wire_ok rem /\ Forall telemetry rem).
      { clear -EW HW HT. rewrite EW in HW, HT. apply Forall_app in HW, HT. tauto. }
      assert (LS : length (stream ws) = length (stream pre) + length (stream rem)) by (rewrite HS, app_length; reflexivity).
      assert (CAT : firstn (a - x0) (stream rem) ++ payload_of izone trailer f = firstn (a + n - x0) (stream rem)).
      { rewrite HP, HS, skipn_app_ge by lia. replace (a + n - x0) with (a - x0 + n) by lia. rewrite firstn_add. rewrite EX. reflexivity. }
      destruct (carve_stream rem (a + n - x0) (proj1 WR) (proj2 WR)) as (d1 & r1 & E1 & D1 & D2 & D3); [lia|].
      destruct (IH (Some (firstn (a + n - x0 - length (stream d1)) (stream r1))) (x0 + length (stream d1))) as [st' R].
      { split; [discriminate|]. right. split; [reflexivity|]. exists (pre ++ d1), r1. split; [rewrite EW, E1, app_assoc; reflexivity|].
        split; [do 2 f_equal; lia|]. rewrite stream_app, app_length. split; [lia|]. split; [lia|]. intros w' r E. specialize (D2 w' r E). lia. }
      exists st'. rewrite (chosen_split pre d1 r1 _ (known (x0 + length (stream d1)) (a + n) zs)).
      * eapply vc_cons; [|exact R]. rewrite ES. apply vc_continue; [exact NB|exact M0|]. rewrite CAT. exact D3.
      * rewrite EW, E1. reflexivity.
      * intros y w' Iw. 
        assert (WP : Forall wire_ok pre) by (clear -EW HW; rewrite EW in HW; apply Forall_app in HW; tauto).
        assert (Y := with_pos_lt _ _ _ _ WP Iw).
        assert (WO : wire_ok w'). { apply (in_ok y). rewrite EW, with_pos_app. apply in_or_app. left. exact Iw. }
        split; (apply whole_first; [exact WO|]); unfold known; rewrite arrived_lt by lia; rewrite orb_false_r; apply andb_false_intro1, Nat.leb_gt; lia.
      * intros y Hy. rewrite known_hd by lia. unfold known. rewrite !(arrived_lt zs) by lia. rewrite !orb_false_r. split.
        -- apply andb_true_intro. split; [apply Nat.leb_le; lia|apply Nat.ltb_lt; lia].
        -- apply andb_false_intro1, Nat.leb_gt. lia.
      * intros y Hy. rewrite known_hd by lia. unfold known. f_equal. f_equal.
        transitivity true; [|symmetry]; apply Nat.leb_le; lia.
Qed.

Lemma loss_from_start : forall a zs fs, lossy false false a zs fs ->
  exists st', vc_run izone trailer None fs (map pk (map snd (filter (whole (arrived a zs)) (with_pos 0 ws)))) st'.
Proof.
  intros a zs fs H. destruct (loss_run _ _ _ _ _ H None a) as [st' R]; [split; [reflexivity|left; auto]|].
  exists st'. replace (map pk _) with (chosen (known a a zs)); [exact R|]. apply chosen_ext. intros x w _. apply whole_ext.
  intros y _. unfold known. destruct (Nat.leb_spec a y), (Nat.ltb_spec y a); try lia; reflexivity.
Qed.
End Run.
