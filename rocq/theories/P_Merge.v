(* Properties C18 - C22: merging packet files *)
From Coq Require Import Permutation Sorted.
From Verif Require Import Base S_Packet M_Reader M_Packet M_Group S_Group M_Timecode L_Base L_Packet L_Group M_Merge S_Merge L_Merge.
Open Scope nat_scope.

(* ---- C18 ---- *)
(* Whatever the hash orders: the output is the bytes of one group for each key of an eligible group *)
Theorem C18_merge_selection : forall h fs m ws, hash_ok h -> readable fs m ws ->
  exists sel, merge h fs m = Val (Ok (concat (map group_bytes sel))) /\ selection m ws sel.
Proof.
  intros h fs m ws H R. destruct (merge_main h fs m ws H R) as (l & sel & F & _ & N & C & E).
  exists sel. split; [exact E|]. eapply main_selection; eassumption.
Qed.
Print Assumptions C18_merge_selection.
(* one file that cannot be opened fails the merge *)
Theorem C18_unreadable : forall h fs m, (exists p, In p (mg_paths m) /\ fs p = None) ->
  exists k, merge h fs m = Val (Err (Io k)).
Proof.
  intros h fs m H. destruct (open_readers_err fs (mg_paths m) [] H) as [k E]. exists k. unfold merge. rewrite E. reflexivity.
Qed.
Print Assumptions C18_unreadable.

(* ---- C19 ---- *)
Lemma before_F2 : forall A B (P : A -> B -> Prop) l l' x y, Forall2 P l l' -> before l' x y ->
  exists a b, before l a b /\ P a x /\ P b y.
Proof.
  intros A B P l l' x y F (l1 & l2 & l3 & ->).
  apply Forall2_app_inv_r in F. destruct F as (k1 & k2 & _ & F & ->). inversion F as [|a ? k2' ? H1 F2]; subst.
  apply Forall2_app_inv_r in F2. destruct F2 as (k3 & k4 & _ & F2 & ->). inversion F2 as [|b ? k5 ? H2 _]; subst.
  exists a, b. split; [exists k1, k3, k5; reflexivity|]. auto.
Qed.
Lemma sorted_before : forall A (R : A -> A -> Prop) l x y, StronglySorted R l -> before l x y -> R x y.
Proof.
  intros A R l x y HS (l1 & l2 & l3 & ->). induction l1 as [|a l1 IH]; cbn [app] in HS; inversion HS as [|? ? H1 H2]; subst; [|auto].
  apply Forall_app in H2. destruct H2 as [_ H2]. inversion H2; assumption.
Qed.
Lemma order_unlisted : forall order i mm a, ~ In a order -> aget a (order_insert i order mm) = aget a mm.
Proof.
  induction order as [|b order IH]; intros i mm a N; cbn [order_insert]; [reflexivity|].
  rewrite IH by (intro; apply N; right; assumption). apply aget_aset_neq. intro. apply N. left. auto.
Qed.
Lemma order_listed : forall order i mm a k, nth_error order k = Some a -> (forall j, k < j -> nth_error order j <> Some a) ->
  aget a (order_insert i order mm) = Some (4096 - Z.of_nat (i + k))%Z.
Proof.
  induction order as [|b order IH]; intros i mm a k E L; [destruct k; discriminate|]. cbn [order_insert]. destruct k as [|k].
  - injection E as ->. rewrite order_unlisted, aget_aset_eq, Nat.add_0_r; [reflexivity|].
    intro I. apply In_nth_error in I. destruct I as [j I]. apply (L (S j)); [lia|exact I].
  - cbn in E. rewrite (IH (S i) _ a k E).
    + do 2 f_equal. f_equal. lia.
    + intros j J. apply (L (S j)). lia.
Qed.
Lemma order_of_value : forall m order a v, mg_order m = [] -> order_value order a v -> order_of (with_apid_order m order) a = v.
Proof.
  intros m order a v E [(i & N & L & ->)|[N ->]]; unfold order_of, with_apid_order; cbn [mg_order]; rewrite E.
  - rewrite (order_listed _ _ _ _ i N L). reflexivity.
  - rewrite order_unlisted by exact N. reflexivity.
Qed.
(* The groups are written by increasing time, and groups of the same time by increasing order value.
   [order] is the argument of with_apid_order; without a call of it, order is []. *)
Theorem C19_merge_sorted : forall h fs m0 order ws, mg_order m0 = [] ->
  let m := with_apid_order m0 order in
  hash_ok h -> readable fs m ws ->
  exists sel, merge h fs m = Val (Ok (concat (map group_bytes sel))) /\ selection m ws sel /\
    forall x y tx ty ax ay sx sy ox oy, before sel x y ->
      gkey m x = Some (tx, ax, sx) -> gkey m y = Some (ty, ay, sy) ->
      order_value order ax ox -> order_value order ay oy ->
      (tx < ty \/ tx = ty /\ ox <= oy)%Z.
Proof.
  intros h fs m0 order ws E m H R. destruct (merge_main h fs m ws H R) as (l & sel & F & SS & N & C & EM).
  exists sel. split; [exact EM|]. split; [eapply main_selection; eassumption|].
  intros x y tx ty ax ay sx sy ox oy B KX KY OX OY. destruct (before_F2 _ _ _ _ _ _ _ F B) as (a & b & B' & SX & SY).
  assert (K := sorted_before _ _ _ _ _ SS B'). rewrite (stands_key _ _ _ _ SX) in KX. rewrite (stands_key _ _ _ _ SY) in KY.
  injection KX as TX EA _. injection KY as TY EB _. rewrite <- EA in OX. rewrite <- EB in OY.
  unfold kle in K. rewrite TX, TY, (stands_order _ _ _ _ SX), (stands_order _ _ _ _ SY) in K. unfold m in K.
  rewrite (order_of_value _ _ _ _ E OX), (order_of_value _ _ _ _ E OY) in K. exact K.
Qed.
Print Assumptions C19_merge_sorted.
Theorem C19_without_order : forall m, mg_order m = [] -> with_apid_order m [] = m.
Proof. intros [] E. reflexivity. Qed.

(* ---- C20 ---- *)
Lemma order_value_ex : forall order a, exists v, order_value order a v.
Proof.
  intros order a. destruct (in_dec N.eq_dec a order) as [I|NI]; [|exists (Z.of_N a); right; auto].
  enough (exists i, nth_error order i = Some a /\ forall j, i < j -> nth_error order j <> Some a) as (i & E & L).
  { exists (4096 - Z.of_nat i)%Z. left. exists i. auto. }
  induction order as [|b order IH] using rev_ind; [destruct I|].
  destruct (N.eq_dec b a) as [->|NE].
  - exists (length order). split; [rewrite nth_error_app2, Nat.sub_diag by lia; reflexivity|].
    intros j J E. assert (j < length (order ++ [a])) by (apply nth_error_Some; congruence). rewrite app_length in H. cbn in H. lia.
  - apply in_app_or in I. destruct I as [I|[I|[]]]; [|congruence]. destruct (IH I) as (i & E & L).
    assert (i < length order) by (apply nth_error_Some; congruence).
    exists i. split; [rewrite nth_error_app1 by lia; exact E|]. intros j J E'.
    destruct (Nat.lt_ge_cases j (length order)) as [Q|Q].
    + rewrite nth_error_app1 in E' by exact Q. exact (L j J E').
    + rewrite nth_error_app2 in E' by exact Q. destruct (j - length order) as [|[|]]; cbn in E'; congruence.
Qed.
Lemma eligible_apid : forall fs m ws g t a s, readable fs m ws -> eligible m ws g -> gkey m g = Some (t, a, s) -> (a < 2048)%N.
Proof.
  intros fs m ws g t a s R (p & gs & f & rest & t' & I & G & Ig & E & _ & T & _) K.
  unfold gkey in K. rewrite E, T in K. injection K as _ <- _. destruct (R p I) as (bs & _ & HW & _).
  assert (X : In f (packets_at 0 (ws p))).
  { rewrite <- (grouping_concat _ _ G). apply in_concat. exists (g_packets g). split; [apply in_map; exact Ig|rewrite E; left; reflexivity]. }
  revert X HW. generalize 0. generalize (ws p). clear. induction l as [|w l IH]; intros off [] HW.
  - subst f. inversion HW as [|? ? H _]; subst. apply H.
  - inversion HW; subst. eapply IH; eassumption.
Qed.
Theorem C20_exact_order : forall h fs m0 order ws, mg_order m0 = [] -> NoDup order -> length order <= 2048 ->
  let m := with_apid_order m0 order in
  hash_ok h -> readable fs m ws ->
  exists sel, merge h fs m = Val (Ok (concat (map group_bytes sel))) /\ selection m ws sel /\
    forall x y t ax ay sx sy, before sel x y ->
      gkey m x = Some (t, ax, sx) -> gkey m y = Some (t, ay, sy) -> not_after order ax ay.
Proof.
  intros h fs m0 order ws E ND LE m H R. destruct (C19_merge_sorted h fs m0 order ws E H R) as (sel & EM & SEL & S).
  exists sel. split; [exact EM|]. split; [exact SEL|]. intros x y t ax ay sx sy B KX KY.
  destruct (order_value_ex order ax) as [ox OX]. destruct (order_value_ex order ay) as [oy OY].
  assert (K := S _ _ _ _ _ _ _ _ _ _ B KX KY OX OY). destruct K as [K|[_ K]]; [lia|].
  assert (EX : eligible m ws x /\ eligible m ws y).
  { destruct SEL as (F & _). rewrite Forall_forall in F. destruct B as (l1 & l2 & l3 & ->).
    split; apply F; apply in_or_app; right; [left; reflexivity|right; apply in_or_app; right; left; reflexivity]. }
  assert (AX := eligible_apid _ _ _ _ _ _ _ R (proj1 EX) KX). assert (AY := eligible_apid _ _ _ _ _ _ _ R (proj2 EX) KY).
  assert (LT : forall i a, nth_error order i = Some a -> i < 2048).
  { intros i a Q. assert (i < length order) by (apply nth_error_Some; congruence). lia. }
  unfold not_after. destruct OX as [(i & NX & _ & ->)|[NX ->]]; destruct OY as [(j & NY & _ & ->)|[NY ->]].
  - right. right. exists i, j. repeat (split; [assumption|]). lia.
  - apply LT in NX. lia.
  - right. left. split; [exact NX|]. eapply nth_error_In. exact NY.
  - left. repeat (split; [assumption|]). lia.
Qed.
Print Assumptions C20_exact_order.
(* the documented order is reversed: of two listed apids sharing a time, all groups of the one listed
   later are written before all groups of the one listed earlier, and unlisted apids before both *)
Lemma before_or : forall A (l : list A) x y, In x l -> In y l -> x <> y -> before l x y \/ before l y x.
Proof.
  intros A l x y IX IY NE. apply in_split in IX. destruct IX as (l1 & l2 & ->). apply in_app_or in IY. destruct IY as [I|[I|I]]; [|congruence|].
  - right. apply in_split in I. destruct I as (k1 & k2 & ->). exists k1, k2, l2. rewrite <- app_assoc. reflexivity.
  - left. apply in_split in I. destruct I as (k1 & k2 & ->). exists l1, k1, k2. reflexivity.
Qed.
Theorem C20_listed_order_reversed_refuted : forall h fs m0 order ws, mg_order m0 = [] -> NoDup order -> length order <= 2048 ->
  let m := with_apid_order m0 order in
  hash_ok h -> readable fs m ws ->
  exists sel, merge h fs m = Val (Ok (concat (map group_bytes sel))) /\ selection m ws sel /\
    forall x y t ax ay sx sy i, In x sel -> In y sel ->
      gkey m x = Some (t, ax, sx) -> gkey m y = Some (t, ay, sy) ->
      nth_error order i = Some ax ->
      (~ In ay order \/ exists j, i < j /\ nth_error order j = Some ay) ->
      before sel y x /\ ~ before sel x y.
Proof.
  intros h fs m0 order ws E ND LE m H R. destruct (C20_exact_order h fs m0 order ws E ND LE H R) as (sel & EM & SEL & S).
  exists sel. split; [exact EM|]. split; [exact SEL|]. intros x y t ax ay sx sy i IX IY KX KY NX NY.
  assert (NB : ~ before sel x y).
  { intro B. destruct (S _ _ _ _ _ _ _ B KX KY) as [(NA & _)|[(NA & _)|(i' & j' & NX' & NY' & LI)]].
    - apply NA. eapply nth_error_In. exact NX.
    - apply NA. eapply nth_error_In. exact NX.
    - destruct NY as [NY|(j & LJ & NY)]; [apply NY; eapply nth_error_In; exact NY'|].
      assert (IL : i < length order) by (apply nth_error_Some; congruence). assert (JL : j < length order) by (apply nth_error_Some; congruence).
      rewrite NoDup_nth_error in ND. assert (i = i') by (apply ND; congruence). assert (j = j') by (apply ND; congruence). lia. }
  split; [|exact NB]. destruct (before_or _ sel y x IY IX) as [B|B]; [|exact B|contradiction].
  intros ->. rewrite KX in KY. injection KY as <- _. destruct NY as [NY|(j & LJ & NY)]; [apply NY; eapply nth_error_In; exact NX|].
  assert (IL : i < length order) by (apply nth_error_Some; congruence).
  rewrite NoDup_nth_error in ND. assert (i = j) by (apply ND; congruence). lia.
Qed.
Print Assumptions C20_listed_order_reversed_refuted.

(* ---- C21 ---- *)
(* a file with nothing but a FIRST packet: an incomplete group, and it is merged *)
Theorem C21_incomplete_group_merged_refuted : forall h fs m p w t ovf, hash_ok h ->
  mg_paths m = [p] -> fs p = Some (wire_bytes w) -> wire_ok w -> (N.of_nat (length (wire_bytes w)) <= 65536)%N ->
  sequence_flags (w_header w) = 1%N ->
  let pkt := mkPacket (w_header w) (wire_bytes w) 0 in
  mg_time m pkt = Some t -> within m t -> requested m (apid (w_header w)) ->
  complete ovf (mkGroup (apid (w_header w)) [pkt]) = Val false /\
  merge h fs m = Val (Ok (wire_bytes w)).
Proof.
  intros h fs m p w t ovf H EP EF HW HL FL pkt T W R.
  split; [unfold complete; cbn [g_packets]; unfold is_standalone; cbn [pkt p_header]; rewrite FL; reflexivity|].
  set (ws := fun _ : N => [w]). assert (RD : readable fs m ws).
  { intros q I. rewrite EP in I. destruct I as [<-|[]]. exists (wire_bytes w). split; [exact EF|].
    split; [constructor; [exact HW|constructor]|]. split; [constructor; [exact HL|constructor]|].
    exists []. cbn. rewrite !app_nil_r. split; [reflexivity|]. split; [constructor|]. split; [apply incomplete_nil|lia]. }
  set (g := mkGroup (apid (w_header w)) [pkt]).
  assert (G : grouping [pkt] [g]).
  { apply (grouping_run pkt [] [] []); try constructor. cbn [pkt p_header]. lia. }
  destruct (C18_merge_selection h fs m ws H RD) as (sel & E & F & N & C).
  assert (EG : eligible m ws g).
  { exists p, [g], pkt, [], t. rewrite EP. split; [left; reflexivity|]. split; [exact G|]. split; [left; reflexivity|].
    split; [reflexivity|]. split; [left; exact FL|]. auto. }
  assert (ALL : forall x, In x sel -> x = g).
  { intros x X. rewrite Forall_forall in F. destruct (F x X) as (q & gs & f & rest & t' & _ & G' & Ig & _).
    cbn [ws packets_at] in G'. rewrite (grouping_det _ _ _ G' G) in Ig. destruct Ig as [<-|[]]. reflexivity. }
  destruct (C g EG) as (g' & I & _). rewrite E. do 2 f_equal.
  destruct sel as [|x [|y sel]]; [destruct I| |].
  - rewrite (ALL x) by (left; reflexivity). cbn. rewrite !app_nil_r. reflexivity.
  - exfalso. cbn [map] in N. inversion N as [|? ? N1 _]; subst. apply N1. left.
    rewrite (ALL x), (ALL y) by (cbn; auto). reflexivity.
Qed.
Print Assumptions C21_incomplete_group_merged_refuted.

(* ---- C22 ---- *)
(* The output does not depend on hash orders when no two eligible groups tie in time and order value,
   except copies of the same group *)
Definition zlt (a b : Z * Z) : Prop := (fst a < fst b \/ fst a = fst b /\ snd a < snd b)%Z.
Lemma strict_unique : forall l1 l2, StronglySorted zlt l1 -> StronglySorted zlt l2 -> (forall x, In x l1 <-> In x l2) -> l1 = l2.
Proof.
  induction l1 as [|a l1 IH]; intros l2 S1 S2 Q.
  - destruct l2 as [|b l2]; [reflexivity|]. exfalso. apply (Q b). left. reflexivity.
  - destruct l2 as [|b l2]; [exfalso; apply (Q a); left; reflexivity|].
    inversion S1 as [|? ? T1 F1]; inversion S2 as [|? ? T2 F2]; subst. rewrite Forall_forall in F1, F2.
    assert (EQ : a = b).
    { destruct (proj1 (Q a) (or_introl eq_refl)) as [E|I]; [auto|]. destruct (proj2 (Q b) (or_introl eq_refl)) as [E|I']; [auto|].
      apply F2 in I. apply F1 in I'. unfold zlt in *. lia. }
    subst b. f_equal. apply IH; [assumption..|]. intro x. split; intro I.
    + destruct (proj1 (Q x) (or_intror I)) as [E|I']; [|exact I']. subst x. apply F1 in I. unfold zlt in I. lia.
    + destruct (proj2 (Q x) (or_intror I)) as [E|I']; [|exact I']. subst x. apply F2 in I. unfold zlt in I. lia.
Qed.
Definition tk (p : ptr) : Z * Z := (pt_time p, pt_order p).
Theorem C22_deterministic_without_ties : forall h h' fs m ws, hash_ok h -> hash_ok h' -> readable fs m ws ->
  (forall g g' t a s a' s', eligible m ws g -> eligible m ws g' -> gkey m g = Some (t, a, s) -> gkey m g' = Some (t, a', s') ->
     order_of m a = order_of m a' -> a = a' /\ s = s' /\ group_bytes g = group_bytes g') ->
  merge h fs m = merge h' fs m.
Proof.
  intros h h' fs m ws H H' R U.
  destruct (merge_main h fs m ws H R) as (l1 & sel1 & F1 & S1 & N1 & C1 & E1).
  destruct (merge_main h' fs m ws H' R) as (l2 & sel2 & F2 & S2 & N2 & C2 & E2).
  rewrite E1, E2. do 2 f_equal.
  assert (EL : forall p g, stands m ws p g -> eligible m ws g) by (intros; apply eligible_stands; eauto).
  assert (UP : forall p g p' g', stands m ws p g -> stands m ws p' g' -> tk p = tk p' -> pkey p = pkey p' /\ group_bytes g = group_bytes g').
  { intros p g p' g' A B T. unfold tk in T. injection T as T O. assert (KA := stands_key _ _ _ _ A). assert (KB := stands_key _ _ _ _ B).
    rewrite (stands_order _ _ _ _ A), (stands_order _ _ _ _ B) in O. rewrite <- T in KB.
    destruct (U g g' _ _ _ _ _ (EL _ _ A) (EL _ _ B) KA KB O) as (P & Q & G). unfold pkey. rewrite T, P, Q. auto. }
  assert (ST : forall l sel, Forall2 (stands m ws) l sel -> StronglySorted kle l -> NoDup (map pkey l) -> StronglySorted zlt (map tk l)).
  { clear -UP. intros l sel F S N. revert S N. induction F as [|p g l sel A F IH]; intros S N; cbn [map]; [constructor|].
    inversion S as [|? ? S' K]; inversion N as [|? ? N1 N2]; subst. constructor; [auto|].
    apply Forall_forall. intros x X. apply in_map_iff in X. destruct X as (q & <- & I). rewrite Forall_forall in K. specialize (K q I).
    assert (B : exists g', stands m ws q g').
    { clear -F I. induction F; [destruct I|destruct I as [->|I]; eauto]. }
    destruct B as [g' B]. assert (D : tk p <> tk q).
    { intro T. destruct (UP _ _ _ _ A B T) as [PK _]. apply N1. rewrite PK. apply in_map. exact I. }
    unfold zlt, kle, tk in *. cbn [fst snd]. destruct K as [K|[K1 K2]]; [left; exact K|right]. split; [exact K1|].
    assert (pt_order p <> pt_order q) by (intro; apply D; congruence). lia. }
  assert (IN : forall l1 sel1 l2 sel2, Forall2 (stands m ws) l1 sel1 -> Forall2 (stands m ws) l2 sel2 ->
    (forall p g, stands m ws p g -> In (pkey p) (map pkey l2)) -> forall x, In x (map tk l1) -> In x (map tk l2)).
  { clear -UP. intros l1 sel1 l2 sel2 F1 F2 C x I. apply in_map_iff in I. destruct I as (p & <- & I).
    assert (A : exists g, stands m ws p g). { clear -F1 I. induction F1; [destruct I|destruct I as [->|I]; eauto]. }
    destruct A as [g A]. specialize (C p g A). apply in_map_iff in C. destruct C as (q & E & J). apply in_map_iff. exists q. split; [|exact J].
    assert (B : exists g', stands m ws q g'). { clear -F2 J. induction F2; [destruct J|destruct J as [->|J]; eauto]. }
    destruct B as [g' B]. unfold pkey in E. injection E as EA ET _. unfold tk.
    rewrite (stands_order _ _ _ _ A), (stands_order _ _ _ _ B), ET, EA. reflexivity. }
  assert (T : map tk l1 = map tk l2).
  { apply strict_unique; [eapply ST; eassumption..|]. intro x. split; [exact (IN _ _ _ _ F1 F2 C2 x)|exact (IN _ _ _ _ F2 F1 C1 x)]. }
  f_equal. clear -UP T F1 F2. revert l2 sel2 F2 T. induction F1 as [|p g l1 sel1 A F1 IH]; intros l2 sel2 F2 T.
  - inversion F2; subst; [reflexivity|discriminate].
  - inversion F2 as [|q g' l2' sel2' B F2']; subst; [discriminate|]. cbn [map] in T |- *. injection T as T1 T2 T3. f_equal; [|eauto].
    eapply UP; [exact A|exact B|]. unfold tk. congruence.
Qed.
Print Assumptions C22_deterministic_without_ties.
(* With a tie the output depends on the hash order: a file of two standalone packets of one apid with
   the same time comes out in either order *)
Definition in_order : hash_order := mkHashOrder (fun l => l) (fun l => l).
Definition reversed : hash_order := mkHashOrder (fun l => l) (@rev ptr).
Lemma in_order_ok : hash_ok in_order. Proof. split; intro; reflexivity. Qed.
Lemma reversed_ok : hash_ok reversed. Proof. split; intro; [reflexivity|apply Permutation_rev]. Qed.
Theorem C22_nondeterministic_refuted : forall fs m p w1 w2 t, 
  mg_paths m = [p] -> fs p = Some (wire_bytes w1 ++ wire_bytes w2) ->
  Forall (fun w => wire_ok w /\ (N.of_nat (length (wire_bytes w)) <= 65536)%N /\ sequence_flags (w_header w) = 3%N /\
            requested m (apid (w_header w)) /\ forall off, mg_time m (mkPacket (w_header w) (wire_bytes w) off) = Some t) [w1; w2] ->
  apid (w_header w1) = apid (w_header w2) -> sequence_id (w_header w1) <> sequence_id (w_header w2) -> within m t ->
  merge in_order fs m = Val (Ok (wire_bytes w1 ++ wire_bytes w2)) /\
  merge reversed fs m = Val (Ok (wire_bytes w2 ++ wire_bytes w1)).
Proof.
  intros fs m p w1 w2 t EP EF HF EA NS W.
  inversion HF as [|? ? (W1 & L1 & F1 & R1 & T1) HF']; subst. inversion HF' as [|? ? (W2 & L2 & F2 & R2 & T2) _]; subst. clear HF HF'.
  set (bs := wire_bytes w1 ++ wire_bytes w2) in *. set (ws := fun _ : N => [w1; w2]).
  assert (FH : file_holds bs [w1; w2]).
  { split; [repeat constructor; apply W1 || apply W2|]. split; [repeat constructor; assumption|].
    exists []. cbn. rewrite !app_nil_r. split; [reflexivity|]. split; [constructor|]. split; [apply incomplete_nil|lia]. }
  set (p1 := mkPacket (w_header w1) (wire_bytes w1) 0). set (p2 := mkPacket (w_header w2) (wire_bytes w2) (length (wire_bytes w1))).
  set (g1 := mkGroup (apid_of p1) [p1]). set (g2 := mkGroup (apid_of p2) [p2]).
  assert (G : grouping (packets_at 0 [w1; w2]) [g1; g2]).
  { cbn [packets_at Nat.add]. apply grouping_standalone; [exact F1|]. apply grouping_standalone; [exact F2|]. constructor. }
  assert (P1 : exists q1, group_ptr m p g1 = Some q1 /\ stands m ws q1 g1 /\ pkey q1 = (apid (w_header w1), t, sequence_id (w_header w1)) /\ pt_order q1 = order_of m (apid (w_header w1))).
  { eexists. assert (Q : group_ptr m p g1 = Some (mkPtr p 0 (list_sum (map (fun p => total_len (p_header p)) [p1])) t (apid_of p1) (seq p1) (order_of m (apid_of p1)))).
    { apply group_ptr_some. exists p1, [], t. split; [reflexivity|]. split; [right; exact F1|]. split; [apply T1|]. auto. }
    split; [exact Q|]. split; [|split; reflexivity]. exists [g1; g2]. rewrite EP. split; [left; reflexivity|]. split; [exact G|]. split; [left; reflexivity|exact Q]. }
  assert (P2 : exists q2, group_ptr m p g2 = Some q2 /\ stands m ws q2 g2 /\ pkey q2 = (apid (w_header w2), t, sequence_id (w_header w2)) /\ pt_order q2 = order_of m (apid (w_header w2))).
  { eexists. assert (Q : group_ptr m p g2 = Some (mkPtr p (length (wire_bytes w1)) (list_sum (map (fun p => total_len (p_header p)) [p2])) t (apid_of p2) (seq p2) (order_of m (apid_of p2)))).
    { apply group_ptr_some. exists p2, [], t. split; [reflexivity|]. split; [right; exact F2|]. split; [apply T2|]. auto. }
    split; [exact Q|]. split; [|split; reflexivity]. exists [g1; g2]. rewrite EP. split; [left; reflexivity|]. split; [exact G|]. split; [right; left; reflexivity|exact Q]. }
  destruct P1 as (q1 & Q1 & S1 & K1 & O1). destruct P2 as (q2 & Q2 & S2 & K2 & O2).
  assert (NE : ptr_eqb q2 q1 = false).
  { destruct (ptr_eqb q2 q1) eqn:E; [|reflexivity]. apply ptr_eqb_key in E. rewrite K1, K2 in E. congruence. }
  assert (IDX : build_index m [(p, bs)] [] = Val [q1; q2]).
  { cbn [build_index]. unfold file_pointers. rewrite (file_packets_ok _ _ FH). cbn [obind]. rewrite (file_groups_ok _ _ G). cbn [obind filter_map_opt].
    rewrite Q1, Q2. unfold set_collect, set_union, set_insert. cbn [fold_left existsb app]. rewrite NE. cbn [orb app length Nat.leb fold_left existsb]. reflexivity. }
  assert (LE : key_leb q1 q2 = true /\ key_leb q2 q1 = true).
  { unfold pkey in K1, K2. injection K1 as _ E1 _. injection K2 as _ E2 _. rewrite !key_leb_kle. unfold kle. rewrite E1, E2, O1, O2, EA. split; right; split; try reflexivity; lia. }
  assert (WR : forall l sel, Forall2 (stands m ws) l sel -> write_groups [(p, bs)] l = Val (Ok (concat (map group_bytes sel)))).
  { intros l sel. apply write_ok. intros q I. rewrite EP in I. destruct I as [<-|[]]. exists bs. split; [cbn; rewrite N.eqb_refl; reflexivity|exact FH]. }
  assert (B1 : group_bytes g1 = wire_bytes w1) by (exact (app_nil_r _)). assert (B2 : group_bytes g2 = wire_bytes w2) by (exact (app_nil_r _)).
  split; unfold merge; rewrite EP; cbn [open_readers]; rewrite EF; cbn [aset in_order reversed ho_readers ho_index]; rewrite IDX; cbn [obind sort_index fold_right rev app insert_sorted].
  - rewrite (proj1 LE). rewrite (WR [q1; q2] [g1; g2]) by (repeat constructor; assumption). cbn [map concat]. rewrite B1, B2, app_nil_r. reflexivity.
  - rewrite (proj2 LE). rewrite (WR [q2; q1] [g2; g1]) by (repeat constructor; assumption). cbn [map concat]. rewrite B1, B2, app_nil_r. reflexivity.
Qed.
Print Assumptions C22_nondeterministic_refuted.

(* ---- a case that meets the hypotheses ---- *)
(* two files; CDS times of 2 byte days: a packet of apid 821 in both, one of 826, a lone FIRST of 900
   and a LAST of 900; order 826, 821 *)
Definition mg_wire (a flags sq day : N) (x : list N) : wire_packet :=
  mkWire (mkHeader 0 0 true a flags sq (N.of_nat (8 + length x) - 1)) ([day / 256; day mod 256; 0; 0; 0; 0; 0; 0] ++ x)%N.
Definition mg_ws (p : N) : list wire_packet :=
  if (p =? 0)%N then [mg_wire 821 3 7 22000 [1]; mg_wire 826 3 4 22000 [2]; mg_wire 900 2 1 22001 []]%N
  else [mg_wire 821 3 7 22000 [1]; mg_wire 900 1 9 21999 [3]]%N.
Definition mg_fs (p : N) : option (list N) := Some (concat (map wire_bytes (mg_ws p)) ++ [8; 0; 0]%N).
Definition mg_m : merger := with_apid_order (merger_new [0; 1]%N cds_time) [826; 821]%N.
Lemma mg_readable : readable mg_fs mg_m mg_ws.
Proof.
  intros p _. eexists. split; [reflexivity|]. unfold mg_ws. destruct (p =? 0)%N.
  - split; [repeat constructor|]. split; [repeat constructor; vm_compute; discriminate|].
    exists [8; 0; 0]%N. split; [reflexivity|]. split; [repeat constructor|]. split; [left; cbn; lia|cbn; lia].
  - split; [repeat constructor|]. split; [repeat constructor; vm_compute; discriminate|].
    exists [8; 0; 0]%N. split; [reflexivity|]. split; [repeat constructor|]. split; [left; cbn; lia|cbn; lia].
Qed.
Example C18_ex : hash_ok in_order /\ hash_ok reversed /\ readable mg_fs mg_m mg_ws /\
  merge reversed mg_fs mg_m = merge in_order mg_fs mg_m /\
  merge in_order mg_fs mg_m = Val (Ok (concat (map wire_bytes
    [mg_wire 900 1 9 21999 [3]; mg_wire 821 3 7 22000 [1]; mg_wire 826 3 4 22000 [2]]%N))).
Proof.
  split; [exact in_order_ok|]. split; [exact reversed_ok|]. split; [exact mg_readable|]. split; vm_compute; reflexivity.
Qed.
(* two packets of one time and apid *)
Example C22_ex : let w1 := mg_wire 821 3 7 22000 [1]%N in let w2 := mg_wire 821 3 8 22000 [2]%N in
  let m := merger_new [0]%N cds_time in
  let fs := fun _ : N => Some (wire_bytes w1 ++ wire_bytes w2) in
  merge in_order fs m = Val (Ok (wire_bytes w1 ++ wire_bytes w2)) /\
  merge reversed fs m = Val (Ok (wire_bytes w2 ++ wire_bytes w1)).
Proof.
  intros w1 w2 m fs. apply (C22_nondeterministic_refuted fs m 0%N w1 w2 3731097600000000000%Z); try reflexivity.
  - apply Forall_cons; [|apply Forall_cons; [|apply Forall_nil]].
    + split; [repeat constructor|]. split; [vm_compute; discriminate|]. split; [reflexivity|]. split; [exact I|]. intro off. vm_compute. reflexivity.
    + split; [repeat constructor|]. split; [vm_compute; discriminate|]. split; [reflexivity|]. split; [exact I|]. intro off. vm_compute. reflexivity.
  - discriminate.
  - split; cbn; lia.
Qed.
Example C21_ex : let w := mg_wire 900 1 9 22000 [3]%N in
  merge reversed (fun _ => Some (wire_bytes w)) (merger_new [0]%N cds_time) = Val (Ok (wire_bytes w)).
Proof.
  intro w. apply (C21_incomplete_group_merged_refuted reversed (fun _ => Some (wire_bytes w)) (merger_new [0]%N cds_time) 0%N w 3731097600000000000%Z true);
    try reflexivity; try (exact reversed_ok).
  - repeat constructor.
  - vm_compute. discriminate.
  - split; cbn; lia.
Qed.
Lemma mg_groups : forall p gs, grouping (packets_at 0 (mg_ws p)) gs ->
  gs = fst (run giter_next 9 (giter_new (packets_at 0 (mg_ws p)))).
Proof.
  intros p gs G. apply groups_exact in G. eapply yields_det; [exact G|]. apply run_yields with (fuel := 9).
  unfold mg_ws. destruct (p =? 0)%N; vm_compute; reflexivity.
Qed.
Example C22_det_ex : merge reversed mg_fs mg_m = merge in_order mg_fs mg_m.
Proof.
  apply C22_deterministic_without_ties with (ws := mg_ws); [exact reversed_ok|exact in_order_ok|exact mg_readable|].
  set (keys := [(Some (3731011200000000000%Z, 900%N, 9%N)); Some (3731097600000000000%Z, 821%N, 7%N); Some (3731097600000000000%Z, 826%N, 4%N)]).
  assert (K : forall g, eligible mg_m mg_ws g -> exists i, nth_error keys i = Some (gkey mg_m g) /\
    nth_error [wire_bytes (mg_wire 900 1 9 21999 [3]%N); wire_bytes (mg_wire 821 3 7 22000 [1]%N); wire_bytes (mg_wire 826 3 4 22000 [2]%N)] i = Some (group_bytes g)).
  { intros g (p & gs & f & rest & t & _ & G & I & E & F & T & _). apply mg_groups in G. subst gs. unfold mg_ws in I. destruct (p =? 0)%N.
    - destruct I as [<-|[<-|[<-|[]]]].
      + exists 1. split; vm_compute; reflexivity.
      + exists 2. split; vm_compute; reflexivity.
      + exfalso. cbn [g_packets] in E. injection E as <- _. cbn in F. lia.
    - destruct I as [<-|[<-|[]]].
      + exists 1. split; vm_compute; reflexivity.
      + exists 0. split; vm_compute; reflexivity. }
  intros g g' t a s a' s' E E' KG KG' O. destruct (K g E) as (i & A & B). destruct (K g' E') as (j & A' & B').
  rewrite KG in A. rewrite KG' in A'. unfold keys in A, A'.
  destruct i as [|[|[|i]]]; cbn [nth_error] in A, B; [..|destruct i; discriminate];
  destruct j as [|[|[|j]]]; cbn [nth_error] in A', B'; try (destruct j; discriminate);
  inversion A; inversion A'; subst; try discriminate; try (vm_compute in O; discriminate);
  (split; [reflexivity|]; split; [reflexivity|congruence]).
Qed.
