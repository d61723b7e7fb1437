(* Lemmas for running the tools on each other's outputs (C94) *)
From Coq Require Import Permutation Sorted.
From Verif Require Import Base S_Bits M_Reader M_Packet M_Group S_Packet S_Group M_Timecode L_Base L_Packet L_Group M_Merge S_Merge L_Merge P_Merge
  M_Cli S_Cli P_CliFilter M_Main S_Main P_Main S_Compose.
Open Scope N_scope.

(* equal but for the place in the file *)
Definition same (p q : packet) : Prop := p_header p = p_header q /\ p_data p = p_data q.
Definition same_group (g g' : pgroup) : Prop := g_apid g = g_apid g' /\ Forall2 same (g_packets g) (g_packets g').
Lemma same_apid : forall p q, same p q -> apid_of p = apid_of q.
Proof. intros p q [H _]. unfold apid_of. rewrite H. reflexivity. Qed.
Lemma same_bytes : forall ps qs, Forall2 same ps qs -> concat (map p_data ps) = concat (map p_data qs).
Proof. induction 1 as [|p q ps qs [_ H] _ IH]; cbn [map concat]; [reflexivity|]. rewrite H, IH. reflexivity. Qed.
Lemma same_group_bytes : forall gs gs', Forall2 same_group gs gs' -> concat (map group_bytes gs) = concat (map group_bytes gs').
Proof. induction 1 as [|g g' gs gs' [_ H] _ IH]; cbn [map concat]; [reflexivity|]. unfold group_bytes at 1 3. rewrite (same_bytes _ _ H), IH. reflexivity. Qed.

Lemma grouping_same : forall ps gs, grouping ps gs -> forall qs, Forall2 same ps qs ->
  exists gs', grouping qs gs' /\ Forall2 same_group gs gs'.
Proof.
  induction 1 as [|p ps gs F G IH|p run rest gs F R N G IH]; intros qs H.
  - inversion H; subst. exists []. split; constructor.
  - inversion H as [|? q ? qs' E H']; subst. destruct (IH qs' H') as (gs' & G' & S'). exists (mkGroup (apid_of q) [q] :: gs'). split.
    + constructor; [destruct E as [E _]; rewrite <- E; exact F|exact G'].
    + constructor; [|exact S']. split; cbn [g_apid g_packets]; [apply same_apid; exact E|repeat constructor; apply E].
  - inversion H as [|? q ? qs' E H']; subst. destruct (Forall2_app_inv_l _ _ H') as (run' & rest' & HR & HS & ->).
    destruct (IH rest' HS) as (gs' & G' & S'). exists (mkGroup (apid_of q) (q :: run') :: gs'). split.
    + constructor; [destruct E as [E _]; rewrite <- E; exact F| | |exact G'].
      * rewrite <- (same_apid _ _ E). clear -R HR. induction HR as [|x y l l' X _ IH]; inversion R; subst; constructor; [rewrite <- (same_apid _ _ X); assumption|auto].
      * inversion HS as [|x y ? ? X]; subst; [exact I|]. rewrite <- (same_apid _ _ X), <- (same_apid _ _ E). exact N.
    + constructor; [|exact S']. split; cbn [g_apid g_packets]; [apply same_apid; exact E|constructor; assumption].
Qed.

(* a packet read from a well-formed file *)
Definition from_wire (p : packet) : Prop :=
  exists w, wire_ok w /\ N.of_nat (length (wire_bytes w)) <= 65536 /\ p_header p = w_header w /\ p_data p = wire_bytes w.
Lemma packets_from : forall ws off, Forall wire_ok ws -> Forall (fun w => N.of_nat (length (wire_bytes w)) <= 65536) ws -> Forall from_wire (packets_at off ws).
Proof.
  induction ws as [|w ws IH]; intros off H L; cbn [packets_at]; [constructor|]. inversion H; inversion L; subst. constructor; [|auto].
  exists w. cbn [p_header p_data]. auto.
Qed.
Lemma written_holds : forall ps, Forall from_wire ps -> exists ws, file_holds (concat (map p_data ps)) ws /\ Forall2 same ps (packets_at 0 ws).
Proof.
  intros ps H. assert (X : exists ws, Forall wire_ok ws /\ Forall (fun w => N.of_nat (length (wire_bytes w)) <= 65536) ws /\
    concat (map p_data ps) = concat (map wire_bytes ws) /\ forall off, Forall2 same ps (packets_at off ws)).
  { induction H as [|p ps (w & W & L & E & D) H (ws & HW & HL & C & S')].
    - exists []. repeat split; constructor.
    - exists (w :: ws). repeat split; [constructor; assumption..| |].
      + cbn [map concat]. rewrite D, C. reflexivity.
      + intro off. cbn [packets_at]. constructor; [split; assumption|apply S']. }
  destruct X as (ws & HW & HL & C & S'). exists ws. split; [|apply S']. split; [exact HW|]. split; [exact HL|].
  exists []. rewrite app_nil_r. split; [exact C|]. split; [constructor|]. split; [apply incomplete_nil|cbn; lia].
Qed.

(* ---- what becomes of groups written one after the other ---- *)
Definition proper (g : pgroup) : Prop :=
  exists p run, g_packets g = p :: run /\ g_apid g = apid_of p /\ Forall (fun q => apid_of q = apid_of p) run /\
    (sequence_flags (p_header p) = 3 -> run = []).
Lemma grouping_proper : forall ps gs, grouping ps gs -> Forall proper gs.
Proof.
  induction 1 as [|p ps gs F G IH|p run rest gs F R N G IH]; constructor; try assumption.
  - exists p, []. repeat split; constructor.
  - exists p, run. repeat split; [exact R|intro C; contradiction].
Qed.
(* consecutive groups written as one *)
Inductive joins : list pgroup -> list pgroup -> Prop :=
| joins_nil : joins [] []
| joins_cons : forall g more sel gs, joins sel gs -> Forall (fun h => g_apid h = g_apid g) more ->
    joins (g :: more ++ sel) (mkGroup (g_apid g) (g_packets g ++ concat (map g_packets more)) :: gs).
Lemma joins_bytes : forall sel gs, joins sel gs -> concat (map group_bytes gs) = concat (map group_bytes sel).
Proof.
  induction 1 as [|g more sel gs J IH A]; [reflexivity|]. cbn [map concat]. rewrite IH, map_app, concat_app, app_assoc. f_equal.
  unfold group_bytes at 1. cbn [g_packets]. rewrite map_app, concat_app. unfold group_bytes at 1. f_equal.
  clear. induction more as [|h more IH]; [reflexivity|]. cbn [map concat]. rewrite map_app, concat_app, IH. reflexivity.
Qed.
Lemma same_start : forall (a : N) (l : list pgroup), exists more rest, l = more ++ rest /\ Forall (fun h => g_apid h = a) more /\
  match rest with [] => True | h :: _ => g_apid h <> a end.
Proof.
  intros a l. induction l as [|h l (more & rest & -> & A & B)]; [exists [], []; repeat constructor|].
  destruct (N.eq_dec (g_apid h) a) as [E|E].
  - exists (h :: more), rest. repeat split; [constructor; assumption|exact B].
  - exists [], (h :: more ++ rest). repeat split; [constructor|exact E].
Qed.
Lemma regroup : forall n sel, (length sel <= n)%nat -> Forall proper sel -> exists gs, grouping (concat (map g_packets sel)) gs /\ joins sel gs.
Proof.
  induction n as [|n IH]; intros sel L H.
  { destruct sel; [|cbn in L; lia]. exists []. split; constructor. }
  destruct H as [|g sel (p & run & E & A & R & U) H]; [exists []; split; constructor|]. cbn [length] in L.
  destruct (N.eq_dec (sequence_flags (p_header p)) 3) as [F|F].
  - destruct (IH sel ltac:(lia) H) as (gs & G & J). specialize (U F). subst run. exists (g :: gs). split.
    + cbn [map concat]. rewrite E. destruct g as [a ps]; cbn [g_apid g_packets] in *. subst. cbn [app]. constructor; assumption.
    + replace g with (mkGroup (g_apid g) (g_packets g ++ concat (map g_packets []))) at 2.
      * apply (joins_cons g [] sel gs J). constructor.
      * cbn [map concat]. rewrite app_nil_r. destruct g; reflexivity.
  - destruct (same_start (g_apid g) sel) as (more & rest & -> & M & B). rewrite app_length in L.
    apply Forall_app in H. destruct H as [HM HR]. destruct (IH rest ltac:(lia) HR) as (gs & G & J).
    exists (mkGroup (g_apid g) (g_packets g ++ concat (map g_packets more)) :: gs). split; [|constructor; assumption].
    cbn [map concat]. rewrite map_app, concat_app, E, A, app_assoc. cbn [app]. constructor; [exact F| | |exact G].
    + apply Forall_app. split; [exact R|]. clear -HM M A. induction HM as [|h more (q & r & E & A' & R' & _) _ IH]; [constructor|].
      inversion M; subst. cbn [map concat]. rewrite E. apply Forall_app. split; [|auto].
      rewrite <- A, <- H1, A'. constructor; [reflexivity|exact R'].
    + destruct rest as [|h rest]; [exact I|]. inversion HR as [|? ? (q & r & E' & A' & _) _]; subst.
      cbn [map concat]. rewrite E'. cbn [app]. rewrite <- A', <- A. exact B.
Qed.
(* every group read back starts with the first packet of one of the groups written *)
Lemma joins_starts : forall (P : N -> packet -> Prop) sel gs, joins sel gs -> Forall proper sel ->
  Forall (fun g => exists f rest, g_packets g = f :: rest /\ P (g_apid g) f) sel -> Forall (fun g => exists f rest, g_packets g = f :: rest /\ P (g_apid g) f) gs.
Proof.
  intros P sel gs J. induction J as [|g more sel gs J IH A]; intros HP H; constructor.
  - inversion H as [|? ? (f & rest & E & X) _]; subst. exists f, (rest ++ concat (map g_packets more)). cbn [g_packets g_apid]. rewrite E. split; [reflexivity|exact X].
  - inversion H as [|? ? _ H']; inversion HP as [|? ? _ HP']; subst. apply Forall_app in H', HP'. apply IH; tauto.
Qed.

(* ---- kept ---- *)
Lemma kept_all : forall A (P : A -> Prop) l, Forall P l -> kept P l l.
Proof. induction 1; constructor; assumption. Qed.
Lemma kept_det : forall A (P : A -> Prop) l k k', kept P l k -> kept P l k' -> k = k'.
Proof.
  intros A P l k k' K. revert k'. induction K as [|x l k X K IH|x l k X K IH]; intros k' K'; inversion K'; subst; try contradiction; [reflexivity| |]; [f_equal|]; auto.
Qed.
Lemma kept_sat : forall A (P : A -> Prop) l k, kept P l k -> Forall P k.
Proof. induction 1; try constructor; assumption. Qed.
Lemma kept_incl : forall A (P Q : A -> Prop) l k, kept P l k -> Forall Q l -> Forall Q k.
Proof. induction 1; intro H'; inversion H'; subst; try constructor; auto. Qed.
Lemma kept_twice : forall A (P Q : A -> Prop) l k k', kept P l k -> kept Q k k' -> kept (fun x => P x /\ Q x) l k'.
Proof.
  intros A P Q l k k' K. revert k'. induction K as [|x l k X K IH|x l k X K IH]; intros k' K'.
  - inversion K'; subst. constructor.
  - inversion K' as [|? ? ? Y K''|? ? ? Y K'']; subst; [apply kept_yes; auto|apply kept_no; [tauto|auto]].
  - apply kept_no; [tauto|auto].
Qed.
Lemma kept_app : forall A (P : A -> Prop) l k l' k', kept P l k -> kept P l' k' -> kept P (l ++ l') (k ++ k').
Proof. induction 1; intro K'; cbn [app]; [exact K'|apply kept_yes; auto|apply kept_no; auto]. Qed.
Lemma kept_none : forall A (P : A -> Prop) l, Forall (fun x => ~ P x) l -> kept P l [].
Proof. induction 1; [constructor|apply kept_no; assumption]. Qed.
Lemma kept_iff : forall A (P Q : A -> Prop) l k, (forall x, P x <-> Q x) -> kept P l k -> kept Q l k.
Proof. intros A P Q l k H K. induction K; [constructor|apply kept_yes; [apply H|]; assumption|apply kept_no; [rewrite <- H|]; assumption]. Qed.
Lemma kept_map : forall A B (f : A -> B) (P : B -> Prop) l k, kept (fun x => P (f x)) l k -> kept P (map f l) (map f k).
Proof. induction 1; cbn [map]; [constructor|apply kept_yes|apply kept_no]; assumption. Qed.
Lemma kept_rel : forall A B (R : A -> B -> Prop) (P : A -> Prop) (Q : B -> Prop), (forall x y, R x y -> (P x <-> Q y)) ->
  forall l k, kept P l k -> forall l', Forall2 R l l' -> exists k', kept Q l' k' /\ Forall2 R k k'.
Proof.
  intros A B R P Q H l k K. induction K as [|x l k X K IH|x l k X K IH]; intros l' F.
  - inversion F; subst. exists []. split; constructor.
  - inversion F as [|? y ? l'' E F']; subst. destruct (IH l'' F') as (k' & K' & FK). exists (y :: k'). split; [apply kept_yes; [apply (H _ _ E); exact X|exact K']|constructor; assumption].
  - inversion F as [|? y ? l'' E F']; subst. destruct (IH l'' F') as (k' & K' & FK). exists k'. split; [apply kept_no; [rewrite <- (H _ _ E); exact X|exact K']|exact FK].
Qed.
Definition is_wire (p : packet) (w : wire_packet) : Prop := p_header p = w_header w /\ p_data p = wire_bytes w.
Lemma packets_wires : forall ws off, Forall2 is_wire (packets_at off ws) ws.
Proof. induction ws as [|w ws IH]; intro off; cbn [packets_at]; constructor; [split; reflexivity|apply IH]. Qed.
Lemma same_wires : forall ps qs ws, Forall2 same ps qs -> Forall2 is_wire qs ws -> Forall2 is_wire ps ws.
Proof.
  intros ps qs ws H. revert ws. induction H as [|p q ps qs [E D] H IH]; intros ws F; inversion F as [|? w ? ws' [E' D'] F']; subst; constructor; [|auto].
  split; congruence.
Qed.
Lemma wires_bytes : forall ps ws, Forall2 is_wire ps ws -> concat (map p_data ps) = concat (map wire_bytes ws).
Proof. induction 1 as [|p w ps ws [_ D] _ IH]; cbn [map concat]; [reflexivity|]. rewrite D, IH. reflexivity. Qed.
Lemma concat_groups_bytes : forall gs, concat (map group_bytes gs) = concat (map p_data (concat (map g_packets gs))).
Proof. induction gs as [|g gs IH]; [reflexivity|]. cbn [map concat]. rewrite map_app, concat_app, IH. reflexivity. Qed.
(* keeping groups by apid is keeping packets by apid *)
Lemma kept_packets : forall (P : N -> Prop), (forall a, P a \/ ~ P a) -> forall gs k, Forall proper gs -> kept (fun g => P (g_apid g)) gs k ->
  kept (fun p => P (apid_of p)) (concat (map g_packets gs)) (concat (map g_packets k)).
Proof.
  intros P D gs k H K. induction K as [|g gs k X K IH|g gs k X K IH]; [constructor| |]; inversion H as [|? ? (p & run & E & A & R & _) H']; subst; cbn [map concat].
  - apply kept_app; [|auto]. apply kept_all. rewrite E. rewrite A in X. constructor; [exact X|]. eapply Forall_impl; [|exact R]. cbn. intros q ->. exact X.
  - change (concat (map g_packets k)) with ([] ++ concat (map g_packets k)). apply kept_app; [|auto]. apply kept_none. rewrite E. rewrite A in X.
    constructor; [exact X|]. eapply Forall_impl; [|exact R]. cbn. intros q ->. exact X.
Qed.
Lemma kept_exists : forall A (P : A -> Prop), (forall x, P x \/ ~ P x) -> forall l, exists k, kept P l k.
Proof. intros A P D l. induction l as [|x l [k K]]; [exists []; constructor|]. destruct (D x); [exists (x :: k); apply kept_yes|exists k; apply kept_no]; assumption. Qed.

(* the time depends on the bytes only *)
Lemma cds_time_same : forall p q, same p q -> cds_time p = cds_time q.
Proof. intros p q [H D]. unfold cds_time, tdecoder_decode. rewrite H, D. reflexivity. Qed.
Lemma timely_same : forall b a g g', same_group g g' -> timely b a g -> timely b a g'.
Proof.
  intros b a g g' [_ H] (f & rest & t & E & F & T & L). rewrite E in H. inversion H as [|? f' ? rest' S' H' E1 E2]; subst.
  exists f', rest', t. destruct (S') as [SH _]. rewrite <- SH, <- (cds_time_same _ _ S'). auto.
Qed.
Lemma same_group_sym : forall g g', same_group g g' -> same_group g' g.
Proof.
  intros g g' [E F]. split; [symmetry; exact E|]. clear E. induction F as [|x y l l' [E D] F IH]; constructor; [split; symmetry; assumption|exact IH].
Qed.
(* a group may be longer: only its first packet counts *)
Lemma timely_first : forall b a g g' f rest rest', g_packets g = f :: rest -> g_packets g' = f :: rest' -> timely b a g -> timely b a g'.
Proof. intros b a g g' f rest rest' E E' (f1 & r1 & t & E1 & X). rewrite E in E1. injection E1 as <- <-. exists f, rest', t. auto. Qed.

(* ---- merging ---- *)
Definition gt (m : merger) (g : pgroup) : Z * Z := match gkey m g with Some (t, a, _) => (t, order_of m a) | None => (0, 0)%Z end.
Lemma stands_gt : forall m ws p g, stands m ws p g -> tk p = gt m g.
Proof. intros m ws p g H. unfold gt, tk. rewrite (stands_key _ _ _ _ H), (stands_order _ _ _ _ H). reflexivity. Qed.
Lemma zlt_irrefl : forall x, ~ zlt x x.
Proof. intros [x y] H. unfold zlt in H. cbn in H. lia. Qed.
Lemma zlt_sorted_inj : forall A (f : A -> Z * Z) l x y, StronglySorted zlt (map f l) -> In x l -> In y l -> f x = f y -> x = y.
Proof.
  intros A f l x y H. induction l as [|z l IH]; cbn [map] in *; [intros []|]. inversion H as [|? ? H' F]; subst. rewrite Forall_map, Forall_forall in F.
  intros [->|I] [->|J] E; [reflexivity| | |auto].
  - exfalso. specialize (F y J). cbv beta in F. rewrite E in F. exact (zlt_irrefl _ F).
  - exfalso. specialize (F x I). cbv beta in F. rewrite E in F. exact (zlt_irrefl _ F).
Qed.
Lemma Forall2_in_l : forall A B (R : A -> B -> Prop) l l' x, Forall2 R l l' -> In x l -> exists y, In y l' /\ R x y.
Proof. induction 1 as [|z y l l' X F IH]; intros []; [subst; exists y; split; [left; reflexivity|exact X]|]. destruct (IH H) as (y' & I' & R'). exists y'. split; [right; exact I'|exact R']. Qed.

Lemma merge_unique : forall h fs m ws sel0, hash_ok h -> readable fs m ws ->
  (forall g, eligible m ws g -> exists g0, In g0 sel0 /\ gkey m g0 = gkey m g /\ group_bytes g0 = group_bytes g) ->
  (forall g0, In g0 sel0 -> exists g, eligible m ws g /\ gkey m g = gkey m g0) ->
  StronglySorted zlt (map (gt m) sel0) ->
  merge h fs m = Val (Ok (concat (map group_bytes sel0))).
Proof.
  intros h fs m ws sel0 H R CO SO ST. destruct (merge_main h fs m ws H R) as (l & sel & F & S' & N & C & E). rewrite E. do 2 f_equal.
  assert (EL : forall p g, stands m ws p g -> eligible m ws g) by (intros; apply eligible_stands; eauto).
  assert (GTK : forall g g0, gkey m g0 = gkey m g -> gt m g0 = gt m g) by (intros g g0 K; unfold gt; rewrite K; reflexivity).
  assert (UP : forall p g p' g', stands m ws p g -> stands m ws p' g' -> tk p = tk p' -> pkey p = pkey p').
  { intros p g p' g' A B T. destruct (CO g (EL _ _ A)) as (g0 & I0 & K0 & _). destruct (CO g' (EL _ _ B)) as (g1 & I1 & K1 & _).
    assert (g0 = g1). { eapply zlt_sorted_inj; [exact ST|exact I0|exact I1|]. rewrite (GTK _ _ K0), (GTK _ _ K1), <- (stands_gt _ _ _ _ A), <- (stands_gt _ _ _ _ B). exact T. }
    subst g1. rewrite (stands_key _ _ _ _ A) in K0. rewrite (stands_key _ _ _ _ B) in K1. unfold pkey. congruence. }
  assert (SS : StronglySorted zlt (map tk l)).
  { clear C E CO SO. revert S' N. induction F as [|p g l sel A F IH]; intros S' N; cbn [map]; [constructor|].
    inversion S' as [|? ? S'' K]; inversion N as [|? ? N1 N2]; subst. constructor; [auto|].
    apply Forall_forall. intros x X. apply in_map_iff in X. destruct X as (q & <- & I). rewrite Forall_forall in K. specialize (K q I).
    destruct (Forall2_in_l _ _ _ _ _ _ F I) as (g' & _ & B). assert (D : tk p <> tk q).
    { intro T. apply N1. rewrite (UP _ _ _ _ A B T). apply in_map. exact I. }
    unfold zlt, kle, tk in *. cbn [fst snd]. destruct K as [K|[K1 K2]]; [left; exact K|right]. split; [exact K1|].
    assert (pt_order p <> pt_order q) by (intro; apply D; congruence). lia. }
  assert (T : map tk l = map (gt m) sel0).
  { apply strict_unique; [exact SS|exact ST|]. intro x. split; intro I; apply in_map_iff in I.
    - destruct I as (p & <- & I). destruct (Forall2_in_l _ _ _ _ _ _ F I) as (g & _ & A). destruct (CO g (EL _ _ A)) as (g0 & I0 & K0 & _).
      rewrite (stands_gt _ _ _ _ A), <- (GTK _ _ K0). apply in_map. exact I0.
    - destruct I as (g0 & <- & I). destruct (SO g0 I) as (g & A & K). apply eligible_stands in A. destruct A as [p A].
      specialize (C p g A). apply in_map_iff in C. destruct C as (q & PK & J). destruct (Forall2_in_l _ _ _ _ _ _ F J) as (g' & _ & B).
      rewrite <- (GTK _ _ K), <- (stands_gt _ _ _ _ A). apply in_map_iff. exists q. split; [|exact J].
      rewrite (stands_gt _ _ _ _ A), (stands_gt _ _ _ _ B). apply GTK. rewrite (stands_key _ _ _ _ A), (stands_key _ _ _ _ B). unfold pkey in PK. congruence. }
  f_equal. assert (FB : Forall2 (fun p g => exists g0, In g0 sel0 /\ gt m g0 = tk p /\ group_bytes g0 = group_bytes g) l sel).
  { clear -F CO EL GTK. induction F as [|p g l sel A F IH]; constructor; [|exact IH]. destruct (CO g (EL _ _ A)) as (g0 & I0 & K0 & B0). exists g0.
    rewrite (GTK _ _ K0), <- (stands_gt _ _ _ _ A). auto. }
  enough (Y : forall sub, (forall g, In g sub -> In g sel0) -> map tk l = map (gt m) sub -> map group_bytes sel = map group_bytes sub) by (apply Y; [auto|exact T]).
  clear -FB ST.
  induction FB as [|p g l sel (g0 & I0 & K0 & B0) FB IH]; intros sub SUB TS; destruct sub as [|g1 sub]; try discriminate; [reflexivity|].
  cbn [map] in TS |- *. injection TS as T1 T2. f_equal; [|apply IH; [intros; apply SUB; right; assumption|exact T2]].
  assert (g0 = g1). { eapply zlt_sorted_inj; [exact ST|exact I0|apply SUB; left; reflexivity|]. congruence. } subst. congruence.
Qed.
Lemma main_sorted : forall h fs m ws, hash_ok h -> readable fs m ws -> no_ties m ws ->
  exists sel, merge h fs m = Val (Ok (concat (map group_bytes sel))) /\ Forall (eligible m ws) sel /\
    (forall g, eligible m ws g -> exists g0, In g0 sel /\ gkey m g0 = gkey m g /\ group_bytes g0 = group_bytes g) /\
    StronglySorted zlt (map (gt m) sel).
Proof.
  intros h fs m ws H R U. destruct (merge_main h fs m ws H R) as (l & sel & F & S' & N & C & E). exists sel. split; [exact E|].
  assert (EL : forall p g, stands m ws p g -> eligible m ws g) by (intros; apply eligible_stands; eauto).
  assert (UP : forall p g p' g', stands m ws p g -> stands m ws p' g' -> tk p = tk p' -> pkey p = pkey p' /\ group_bytes g = group_bytes g').
  { intros p g p' g' A B T. unfold tk in T. injection T as T O. assert (KA := stands_key _ _ _ _ A). assert (KB := stands_key _ _ _ _ B).
    rewrite (stands_order _ _ _ _ A), (stands_order _ _ _ _ B) in O. rewrite <- T in KB.
    destruct (U g g' _ _ _ _ _ (EL _ _ A) (EL _ _ B) KA KB O) as (P & Q & G). unfold pkey. rewrite T, P, Q. auto. }
  split; [|split].
  - clear -F EL. induction F; constructor; eauto.
  - intros g G. apply eligible_stands in G. destruct G as [p A]. specialize (C p g A). apply in_map_iff in C. destruct C as (q & PK & J).
    destruct (Forall2_in_l _ _ _ _ _ _ F J) as (g' & I' & B). exists g'. split; [exact I'|]. assert (K : gkey m g' = gkey m g).
    { rewrite (stands_key _ _ _ _ A), (stands_key _ _ _ _ B). unfold pkey in PK. congruence. }
    split; [exact K|]. eapply UP; [exact B|exact A|]. rewrite (stands_gt _ _ _ _ A), (stands_gt _ _ _ _ B). unfold gt. rewrite K. reflexivity.
  - clear C E. revert S' N. induction F as [|p g l sel A F IH]; intros S' N; cbn [map]; [constructor|].
    inversion S' as [|? ? S'' K]; inversion N as [|? ? N1 N2]; subst. constructor; [auto|].
    apply Forall_forall. intros x X. apply in_map_iff in X. destruct X as (g' & <- & I).
    assert (QQ : exists q, In q l /\ stands m ws q g').
    { clear -F I. induction F as [|q h l sel B F IH]; [destruct I|]. destruct I as [->|I]; [exists q; split; [left; reflexivity|exact B]|]. destruct (IH I) as (q' & J & B'). exists q'. split; [right; exact J|exact B']. }
    destruct QQ as (q & J & B). rewrite Forall_forall in K. specialize (K q J). rewrite <- (stands_gt _ _ _ _ A), <- (stands_gt _ _ _ _ B).
    assert (D : tk p <> tk q). { intro T. apply N1. destruct (UP _ _ _ _ A B T) as [-> _]. apply in_map. exact J. }
    unfold zlt, kle, tk in *. cbn [fst snd]. destruct K as [K|[K1 K2]]; [left; exact K|right]. split; [exact K1|].
    assert (pt_order p <> pt_order q) by (intro; apply D; congruence). lia.
Qed.

(* what is merged can be read again *)
Lemma eligible_from : forall fs m ws g, readable fs m ws -> eligible m ws g -> proper g /\ Forall from_wire (g_packets g).
Proof.
  intros fs m ws g R (p & gs & f & rest & t & I & G & Ig & _). destruct (R p I) as (bs & _ & HW & HL & _).
  assert (P := grouping_proper _ _ G). rewrite Forall_forall in P. split; [apply P; exact Ig|].
  assert (FW := packets_from (ws p) 0 HW HL). rewrite <- (grouping_concat _ _ G) in FW. rewrite Forall_concat, Forall_map, Forall_forall in FW. exact (FW g Ig).
Qed.
Lemma same_time : forall m p q, place_free (mg_time m) -> same p q -> mg_time m p = mg_time m q.
Proof. intros m [h d o] [h' d' o'] F [E D]. cbn [p_header p_data] in *. subst. apply F. Qed.
Lemma same_gkey : forall m g g', place_free (mg_time m) -> same_group g g' -> gkey m g = gkey m g'.
Proof.
  intros m g g' F [_ H]. unfold gkey. inversion H as [|p q l l' S' H']; [reflexivity|]. rewrite (same_time m p q F S'). destruct (mg_time m q); [|reflexivity].
  unfold apid_of, seq. destruct S' as [-> _]. reflexivity.
Qed.
Lemma same_group_bytes1 : forall g g', same_group g g' -> group_bytes g = group_bytes g'.
Proof. intros g g' [_ H]. unfold group_bytes. apply same_bytes. exact H. Qed.
(* the conditions on a group's first packet *)
Definition fit (m : merger) (f : packet) : Prop :=
  (sequence_flags (p_header f) = 1 \/ sequence_flags (p_header f) = 3) /\ exists t, mg_time m f = Some t /\ within m t /\ requested m (apid_of f).
Lemma eligible_fit : forall m ws g, eligible m ws g <-> exists p gs f rest, In p (mg_paths m) /\ grouping (packets_at 0 (ws p)) gs /\ In g gs /\ g_packets g = f :: rest /\ fit m f.
Proof.
  intros m ws g. split.
  - intros (p & gs & f & rest & t & I & G & Ig & E & F & T & W & Q). exists p, gs, f, rest. repeat (split; [assumption|]). exists t. auto.
  - intros (p & gs & f & rest & I & G & Ig & E & F & t & T & W & Q). exists p, gs, f, rest, t. auto 10.
Qed.
Lemma same_fit : forall m p q, place_free (mg_time m) -> same p q -> fit m p -> fit m q.
Proof.
  intros m p q F S' (A & t & T & W & Q). rewrite (same_time m p q F S') in T. rewrite (same_apid p q S') in Q. destruct S' as [E _]. split; [rewrite <- E; exact A|]. exists t. auto.
Qed.
Lemma within_on : forall m paths t, within (on_paths m paths) t <-> within m t. Proof. reflexivity. Qed.
Lemma fit_on : forall m paths f, fit (on_paths m paths) f <-> fit m f. Proof. reflexivity. Qed.
Lemma gkey_on : forall m paths g, gkey (on_paths m paths) g = gkey m g. Proof. reflexivity. Qed.
Lemma gt_on : forall m paths g, gt (on_paths m paths) g = gt m g. Proof. reflexivity. Qed.
Lemma eligible_on : forall m A B ws g, (forall p, In p A -> In p B) -> eligible (on_paths m A) ws g -> eligible (on_paths m B) ws g.
Proof. intros m A B ws g S' H. apply eligible_fit in H. apply eligible_fit. destruct H as (p & gs & f & rest & I & H). exists p, gs, f, rest. split; [apply S'; exact I|exact H]. Qed.
Lemma joins_gt : forall m sel gs, joins sel gs -> Forall proper sel -> forall (P : Z * Z -> Prop), Forall P (map (gt m) sel) -> Forall P (map (gt m) gs).
Proof.
  intros m sel gs J. induction J as [|g more sel gs J IH A]; intros HP P H; [constructor|]. cbn [map] in *. inversion H as [|? ? X H']; subst. inversion HP as [|? ? (p & run & E & _) HP']; subst.
  rewrite map_app in H'. apply Forall_app in H', HP'. constructor; [|apply IH; tauto]. replace (gt m (mkGroup _ _)) with (gt m g); [exact X|]. unfold gt, gkey. cbn [g_packets]. rewrite E. reflexivity.
Qed.
Lemma joins_sorted : forall m sel gs, joins sel gs -> Forall proper sel -> StronglySorted zlt (map (gt m) sel) -> StronglySorted zlt (map (gt m) gs).
Proof.
  intros m sel gs J. induction J as [|g more sel gs J IH A]; intros HP H; [constructor|]. cbn [map] in *. inversion H as [|? ? H' F]; subst. inversion HP as [|? ? (p & run & E & _) HP']; subst.
  apply Forall_app in HP'. rewrite map_app in H', F. assert (ST : StronglySorted zlt (map (gt m) sel)).
  { clear -H'. induction more as [|h more IH]; [exact H'|]. cbn [map app] in H'. inversion H'; subst. auto. }
  apply Forall_app in F. constructor; [apply IH; tauto|]. eapply joins_gt; [exact J|tauto|].
  replace (gt m (mkGroup _ _)) with (gt m g); [apply F|]. unfold gt, gkey. cbn [g_packets]. rewrite E. reflexivity.
Qed.
