(* Lemmas about Merger::merge *)
From Coq Require Import Permutation Sorted.
From Verif Require Import Base S_Packet M_Reader M_Packet M_Group S_Group M_Timecode L_Base L_Packet L_Group M_Merge S_Merge.
Open Scope nat_scope.

(* ---- files ---- *)
Lemma collect_yields : forall S A (next : S -> outcome (option A * S)) s l fuel,
  yields next s l -> length l < fuel -> collect_run next fuel s = Val l.
Proof. intros. unfold collect_run. rewrite (yields_run _ _ _ _ _ _ H H0). reflexivity. Qed.
Lemma keep_ok_map : forall A (l : list A), keep_ok (map Ok l) = l.
Proof. induction l; cbn; congruence. Qed.
Lemma packets_at_length : forall ws off, length (packets_at off ws) = length ws.
Proof. induction ws; intro; cbn; [reflexivity|]. rewrite IHws. reflexivity. Qed.
Lemma wires_length : forall ws, Forall wire_ok ws -> length ws <= length (concat (map wire_bytes ws)).
Proof.
  induction 1 as [|w ws H _ IH]; cbn; [lia|]. rewrite app_length. destruct (wire_bytes_props w H) as (_ & L & _). lia.
Qed.
Lemma file_packets_ok : forall bs ws, file_holds bs ws -> file_packets bs = Val (packets_at 0 ws).
Proof.
  intros bs ws (HW & HL & tail & E & HB & HI & HT). unfold file_packets.
  rewrite (collect_yields _ _ _ _ (map Ok (packets_at 0 ws))).
  - cbn [obind]. rewrite keep_ok_map. reflexivity.
  - rewrite E. apply decode_stream_plain; assumption.
  - rewrite map_length, packets_at_length, E, app_length. assert (L := wires_length ws HW). lia.
Qed.
Lemma grouping_length : forall ps gs, grouping ps gs -> length gs <= length ps.
Proof. induction 1; cbn; rewrite ?app_length; lia. Qed.
Lemma grouping_det : forall ps gs gs', grouping ps gs -> grouping ps gs' -> gs = gs'.
Proof. intros ps gs gs' A B. apply groups_exact in A, B. eapply yields_det; eassumption. Qed.
Lemma file_groups_ok : forall ps gs, grouping ps gs -> file_groups ps = Val gs.
Proof.
  intros ps gs G. unfold file_groups. apply collect_yields; [apply groups_exact; exact G|].
  assert (L := grouping_length _ _ G). lia.
Qed.

Lemma packets_at_app : forall a b off, packets_at off (a ++ b) = packets_at off a ++ packets_at (off + length (concat (map wire_bytes a))) b.
Proof.
  induction a as [|w a IH]; intros b off; cbn [packets_at app map concat length]; [rewrite Nat.add_0_r; reflexivity|].
  rewrite IH, app_length. do 3 f_equal. lia.
Qed.
Lemma packets_at_split : forall ws off A B, packets_at off ws = A ++ B ->
  exists a b, ws = a ++ b /\ A = packets_at off a /\ B = packets_at (off + length (concat (map wire_bytes a))) b.
Proof.
  induction ws as [|w ws IH]; intros off A B E.
  - cbn in E. symmetry in E. apply app_eq_nil in E. destruct E as [-> ->]. exists [], []. auto.
  - destruct A as [|x A].
    + exists [], (w :: ws). cbn [app packets_at map concat length]. rewrite Nat.add_0_r. auto.
    + cbn [packets_at app] in E. injection E as <- E. destruct (IH _ _ _ E) as (a & b & -> & -> & ->).
      exists (w :: a), b. split; [reflexivity|]. split; [reflexivity|]. cbn [map concat]. rewrite app_length, Nat.add_assoc. reflexivity.
Qed.
Lemma packets_data : forall ws off, concat (map p_data (packets_at off ws)) = concat (map wire_bytes ws).
Proof. induction ws; intro; cbn; [reflexivity|]. rewrite IHws. reflexivity. Qed.
Lemma packets_total : forall ws off, Forall wire_ok ws ->
  list_sum (map (fun p => total_len (p_header p)) (packets_at off ws)) = length (concat (map wire_bytes ws)).
Proof.
  intros ws off H. revert off. induction H as [|w ws H _ IH]; intro off; cbn [packets_at map concat list_sum fold_right]; [reflexivity|].
  unfold list_sum in IH. rewrite app_length, IH. f_equal. unfold wire_bytes. rewrite app_length, encode_length. destruct H as (_ & _ & E).
  unfold total_len, HDR_LEN. cbn [p_header]. lia.
Qed.
(* the bytes of a group are together in its file *)
Lemma group_span : forall bs ws gs g f rest, file_holds bs ws -> grouping (packets_at 0 ws) gs -> In g gs -> g_packets g = f :: rest ->
  let n := list_sum (map (fun p => total_len (p_header p)) (g_packets g)) in
  n <= length (skipn (p_offset f) bs) /\ firstn n (skipn (p_offset f) bs) = group_bytes g.
Proof.
  intros bs ws gs g f rest (HW & _ & tail & -> & _) G I E n.
  apply in_split in I. destruct I as (gs1 & gs2 & ->). assert (C := grouping_concat _ _ G).
  rewrite map_app in C. cbn [map] in C. rewrite concat_app in C. cbn [concat] in C. symmetry in C.
  destruct (packets_at_split _ _ _ _ C) as (wa & wb & -> & EA & EB). cbn [Nat.add] in EB. symmetry in EB.
  destruct (packets_at_split _ _ _ _ EB) as (wg & wc & -> & EG & _).
  apply Forall_app in HW. destruct HW as [_ HW]. apply Forall_app in HW. destruct HW as [HW _].
  assert (LN : n = length (concat (map wire_bytes wg))) by (unfold n; rewrite EG; apply packets_total; exact HW).
  assert (BG : group_bytes g = concat (map wire_bytes wg)) by (unfold group_bytes; rewrite EG; apply packets_data).
  assert (OF : p_offset f = length (concat (map wire_bytes wa))).
  { rewrite E in EG. destruct wg as [|w wg]; [discriminate|]. cbn [packets_at] in EG. injection EG as -> _. reflexivity. }
  rewrite OF, LN, BG, !map_app, !concat_app, <- !app_assoc, skipn_app_exact.
  split; [rewrite app_length; lia|apply firstn_app_exact].
Qed.

(* ---- sets of pointers ---- *)
Definition pkey (p : ptr) : N * Z * N := (pt_apid p, pt_time p, pt_seqid p).
Lemma ptr_eqb_key : forall a b, ptr_eqb a b = true <-> pkey a = pkey b.
Proof.
  intros a b. unfold ptr_eqb, pkey. rewrite !andb_true_iff, !N.eqb_eq, Z.eqb_eq. split.
  - intros [[-> ->] ->]. reflexivity.
  - intro E. injection E as -> -> ->. auto.
Qed.
Lemma existsb_key : forall p s, existsb (ptr_eqb p) s = true <-> In (pkey p) (map pkey s).
Proof.
  intros p s. rewrite existsb_exists, in_map_iff. split; intros (x & A & B); exists x; rewrite ?ptr_eqb_key in *; auto.
Qed.
(* [s] has one element for each key of l, all taken from l *)
Definition picks (l s : list ptr) : Prop :=
  NoDup (map pkey s) /\ incl s l /\ forall p, In p l -> In (pkey p) (map pkey s).
Lemma fold_picks : forall add l s, picks l s -> picks (l ++ add) (fold_left set_insert add s).
Proof.
  induction add as [|p add IH]; intros l s P; cbn [fold_left]; [rewrite app_nil_r; exact P|].
  replace (l ++ p :: add) with ((l ++ [p]) ++ add) by (rewrite <- app_assoc; reflexivity). apply IH.
  destruct P as (N & S & C). unfold set_insert. destruct (existsb (ptr_eqb p) s) eqn:E.
  - apply existsb_key in E. split; [exact N|]. split; [intros x X; apply in_or_app; left; auto|].
    intros x X. apply in_app_or in X. destruct X as [X|[->|[]]]; auto.
  - assert (NE : ~ In (pkey p) (map pkey s)) by (rewrite <- existsb_key; congruence).
    split; [|split].
    + rewrite map_app. cbn [map]. apply NoDup_rev in N. rewrite <- (rev_involutive (map pkey s ++ [pkey p])), rev_app_distr.
      apply NoDup_rev. cbn. constructor; [|exact N]. rewrite <- in_rev. exact NE.
    + intros x X. apply in_or_app. apply in_app_or in X. destruct X as [X|[->|[]]]; [left; auto|right; left; reflexivity].
    + intros x X. rewrite map_app. apply in_or_app. apply in_app_or in X. destruct X as [X|[->|[]]]; [left; auto|right; left; reflexivity].
Qed.
Lemma picks_nil : picks [] [].
Proof. split; [constructor|]. split; [apply incl_refl|]. intros p []. Qed.
Lemma collect_picks : forall l, picks l (set_collect l).
Proof. intro l. unfold set_collect. rewrite <- (app_nil_l l) at 1. apply fold_picks, picks_nil. Qed.
Lemma picks_trans_incl : forall l l' s, picks l s -> (forall p, In p l' -> In (pkey p) (map pkey l)) -> incl l l' -> picks l' s.
Proof.
  intros l l' s (N & S & C) H I. split; [exact N|]. split; [eapply incl_tran; eassumption|].
  intros p P. apply H in P. apply in_map_iff in P. destruct P as (q & E & Q). rewrite <- E. auto.
Qed.
Lemma union_picks : forall l1 s1 l2 s2, picks l1 s1 -> picks l2 s2 -> picks (l1 ++ l2) (set_union s1 s2).
Proof.
  intros l1 s1 l2 s2 P1 P2. unfold set_union. destruct (length s2 <=? length s1).
  - apply (picks_trans_incl (l1 ++ s2)); [apply fold_picks; exact P1| |apply incl_app; [apply incl_appl, incl_refl|apply incl_appr, P2]].
    intros p P. rewrite map_app. apply in_or_app. apply in_app_or in P. destruct P as [P|P]; [left; apply in_map; exact P|right].
    apply P2. exact P.
  - apply (picks_trans_incl (l2 ++ s1)); [apply fold_picks; exact P2| |apply incl_app; [apply incl_appr, incl_refl|apply incl_appl, P1]].
    intros p P. rewrite map_app. apply in_or_app. apply in_app_or in P. destruct P as [P|P]; [right; apply P1; exact P|left; apply in_map; exact P].
Qed.

(* ---- the index ---- *)
Lemma in_filter_map_opt : forall A B (f : A -> option B) l b, In b (filter_map_opt f l) <-> exists a, In a l /\ f a = Some b.
Proof.
  induction l as [|a l IH]; intro b; cbn [filter_map_opt].
  - split; [intros []|intros (a & [] & _)].
  - destruct (f a) as [b'|] eqn:E.
    + cbn [In]. rewrite IH. split.
      * intros [->|(x & I & F)]; [exists a; auto|exists x; auto].
      * intros (x & [->|I] & F); [left; congruence|right; exists x; auto].
    + rewrite IH. split; [intros (x & I & F); exists x; split; [right|]; assumption|intros (x & [->|I] & F); [congruence|exists x; auto]].
Qed.
Fixpoint all_ptrs (m : merger) (ws : N -> list wire_packet) (paths : list N) (gss : list (list pgroup)) : list ptr :=
  match paths, gss with
  | p :: paths, gs :: gss => filter_map_opt (group_ptr m p) gs ++ all_ptrs m ws paths gss
  | _, _ => []
  end.
Lemma in_all_ptrs : forall m ws paths gss q, Forall2 (fun p gs => grouping (packets_at 0 (ws p)) gs) paths gss ->
  (In q (all_ptrs m ws paths gss) <-> exists p gs g, In p paths /\ grouping (packets_at 0 (ws p)) gs /\ In g gs /\ group_ptr m p g = Some q).
Proof.
  intros m ws paths gss q F. induction F as [|p gs paths gss G F IH]; cbn [all_ptrs].
  - split; [intros []|intros (p & gs & g & [] & _)].
  - rewrite in_app_iff, IH, in_filter_map_opt. split.
    + intros [(g & I & E)|(p' & gs' & g & I & R)]; [exists p, gs, g; cbn; auto|exists p', gs', g; cbn; tauto].
    + intros (p' & gs' & g & [->|I] & G' & Ig & E); [left; exists g; split; [rewrite (grouping_det _ _ _ G G')|]; assumption|right; exists p', gs', g; auto].
Qed.
Lemma build_index_ok : forall m ws readers index l0,
  Forall (fun r => file_holds (snd r) (ws (fst r))) readers -> picks l0 index ->
  exists gss index', Forall2 (fun p gs => grouping (packets_at 0 (ws p)) gs) (map fst readers) gss /\
    build_index m readers index = Val index' /\ picks (l0 ++ all_ptrs m ws (map fst readers) gss) index'.
Proof.
  intros m ws readers. induction readers as [|[p bs] readers IH]; intros index l0 HF HP.
  - exists [], index. cbn. rewrite app_nil_r. split; [constructor|]. split; [reflexivity|exact HP].
  - inversion HF as [|? ? H1 H2]; subst. cbn [fst snd] in H1. destruct (grouping_total (packets_at 0 (ws p))) as [gs G].
    assert (FP : file_pointers m p bs = Val (set_collect (filter_map_opt (group_ptr m p) gs))).
    { unfold file_pointers. rewrite (file_packets_ok _ _ H1). cbn [obind]. rewrite (file_groups_ok _ _ G). reflexivity. }
    destruct (IH (set_union index (set_collect (filter_map_opt (group_ptr m p) gs))) (l0 ++ filter_map_opt (group_ptr m p) gs) H2) as (gss & i' & F & E & P).
    { apply union_picks; [exact HP|apply collect_picks]. }
    exists (gs :: gss), i'. cbn [map fst build_index all_ptrs]. split; [constructor; assumption|]. rewrite FP. cbn [obind].
    split; [exact E|]. rewrite app_assoc. exact P.
Qed.

(* ---- opening ---- *)
Lemma open_readers_ok : forall fs paths m,
  (forall p, In p paths -> fs p <> None) -> NoDup (map fst m) -> (forall p bs, In (p, bs) m -> fs p = Some bs) ->
  exists r, open_readers fs paths m = Ok r /\ NoDup (map fst r) /\ (forall p bs, In (p, bs) r -> fs p = Some bs) /\
    (forall p, In p (map fst r) <-> In p paths \/ In p (map fst m)).
Proof.
  intros fs paths. induction paths as [|p paths IH]; intros m H N HM.
  - exists m. cbn. split; [reflexivity|]. split; [exact N|]. split; [exact HM|]. tauto.
  - cbn [open_readers]. destruct (fs p) as [bs|] eqn:E; [|exfalso; apply (H p); [left; reflexivity|exact E]].
    destruct (IH (aset p bs m)) as (r & R & NR & HR & KR).
    + intros q Q. apply H. right. exact Q.
    + apply nodup_aset. exact N.
    + intros q b I. apply in_aset in I. destruct I as [I|I]; [congruence|auto].
    + exists r. split; [exact R|]. split; [exact NR|]. split; [exact HR|]. intro q. rewrite KR, keys_aset. cbn [In]. intuition congruence.
Qed.
Lemma open_readers_err : forall fs paths m, (exists p, In p paths /\ fs p = None) -> exists e, open_readers fs paths m = Err (Io e).
Proof.
  intros fs paths. induction paths as [|q paths IH]; intros m (p & I & E); [destruct I|].
  cbn [open_readers]. destruct (fs q) as [bs|] eqn:EQ; [|eauto].
  apply IH. destruct I as [->|I]; [congruence|eauto].
Qed.

(* ---- sorting ---- *)
Definition kle (a b : ptr) : Prop := (pt_time a < pt_time b)%Z \/ (pt_time a = pt_time b /\ (pt_order a <= pt_order b)%Z).
Lemma key_leb_kle : forall a b, key_leb a b = true <-> kle a b.
Proof. intros a b. unfold key_leb, kle. rewrite orb_true_iff, andb_true_iff, Z.ltb_lt, Z.eqb_eq, Z.leb_le. reflexivity. Qed.
Lemma kle_total : forall a b, ~ kle a b -> kle b a.
Proof. unfold kle. intros. lia. Qed.
Lemma kle_trans : forall a b c, kle a b -> kle b c -> kle a c.
Proof. unfold kle. intros. lia. Qed.
Lemma insert_perm : forall p l, Permutation (p :: l) (insert_sorted p l).
Proof.
  induction l as [|q l IH]; cbn [insert_sorted]; [reflexivity|]. destruct (key_leb p q); [reflexivity|].
  etransitivity; [apply perm_swap|]. constructor. exact IH.
Qed.
Lemma sort_perm : forall l, Permutation l (sort_index l).
Proof. induction l as [|p l IH]; cbn; [constructor|]. etransitivity; [constructor; exact IH|apply insert_perm]. Qed.
Lemma insert_sorted_ok : forall p l, StronglySorted kle l -> StronglySorted kle (insert_sorted p l).
Proof.
  intros p l H. induction H as [|q l Hl IH HF]; cbn [insert_sorted]; [repeat constructor|].
  destruct (key_leb p q) eqn:E.
  - apply key_leb_kle in E. constructor; [constructor; assumption|]. constructor; [exact E|].
    eapply Forall_impl; [|exact HF]. intros x X. eapply kle_trans; eassumption.
  - constructor; [exact IH|]. assert (K : kle q p) by (apply kle_total; rewrite <- key_leb_kle; congruence).
    apply (Permutation_Forall (insert_perm p l)). constructor; assumption.
Qed.
Lemma sort_sorted : forall l, StronglySorted kle (sort_index l).
Proof. induction l; cbn; [constructor|]. apply insert_sorted_ok. assumption. Qed.

(* ---- what a pointer stands for ---- *)
Definition stands (m : merger) (ws : N -> list wire_packet) (p : ptr) (g : pgroup) : Prop :=
  exists gs, In (pt_path p) (mg_paths m) /\ grouping (packets_at 0 (ws (pt_path p))) gs /\ In g gs /\ group_ptr m (pt_path p) g = Some p.
Lemma group_ptr_some : forall m p g q, group_ptr m p g = Some q <-> exists f rest t,
  g_packets g = f :: rest /\ (sequence_flags (p_header f) = 1 \/ sequence_flags (p_header f) = 3)%N /\
  mg_time m f = Some t /\ within m t /\ requested m (apid_of f) /\
  q = mkPtr p (p_offset f) (list_sum (map (fun p => total_len (p_header p)) (g_packets g))) t (apid_of f) (seq f) (order_of m (apid_of f)).
Proof.
  intros m p g q. unfold group_ptr. destruct (g_packets g) as [|f rest].
  - split; [discriminate|intros (f & rest & t & E & _); discriminate].
  - assert (A : negb (is_first f || is_standalone f) = false <-> (sequence_flags (p_header f) = 1 \/ sequence_flags (p_header f) = 3)%N).
    { unfold is_first, is_standalone, SEQ_FIRST, SEQ_UNSEGMENTED. rewrite negb_false_iff, orb_true_iff, !N.eqb_eq. reflexivity. }
    assert (R : negb match apid_set m with [] => true | _ => false end && negb (existsb (N.eqb (apid (p_header f))) (apid_set m)) = false <-> requested m (apid_of f)).
    { unfold apid_set, requested, apid_of. destruct (mg_apids m) as [[|x l]|]; try (cbn; split; auto; fail).
      cbn [negb andb]. rewrite negb_false_iff, existsb_exists. split; [intros (y & I & E); apply N.eqb_eq in E; congruence|intro I; exists (apid (p_header f)); split; [exact I|apply N.eqb_refl]]. }
    destruct (negb (is_first f || is_standalone f)).
    { split; [discriminate|]. intros (f' & rest' & t & E & F & _). injection E as <- <-. apply A in F. discriminate. }
    destruct (mg_time m f) as [t|] eqn:T; [|split; [discriminate|intros (f' & rest' & t & E & _ & T' & _); injection E as <- <-; congruence]].
    assert (W : (t <? from_nanos m)%Z = false /\ (to_nanos m <=? t)%Z = false <-> within m t).
    { unfold within, from_nanos, to_nanos, NANOS_1900, NANOS_2200. rewrite Z.ltb_ge, Z.leb_gt. reflexivity. }
    destruct (t <? from_nanos m)%Z.
    { split; [discriminate|]. intros (f' & rest' & t' & E & _ & T' & WW & _). injection E as <- <-. assert (t' = t) by congruence. subst t'. apply W in WW. destruct WW; discriminate. }
    destruct (to_nanos m <=? t)%Z.
    { split; [discriminate|]. intros (f' & rest' & t' & E & _ & T' & WW & _). injection E as <- <-. assert (t' = t) by congruence. subst t'. apply W in WW. destruct WW; discriminate. }
    destruct (negb match apid_set m with [] => true | _ => false end && negb (existsb (N.eqb (apid (p_header f))) (apid_set m))).
    { split; [discriminate|]. intros (f' & rest' & t' & E & _ & T' & _ & RR & _). injection E as <- <-. apply R in RR. discriminate. }
    split.
    + intro E. injection E as <-. exists f, rest, t. repeat (split; [first [reflexivity|apply A; reflexivity|assumption|apply W; split; reflexivity|apply R; reflexivity]|]). reflexivity.
    + intros (f' & rest' & t' & E & _ & T' & _ & _ & ->). injection E as <- <-. assert (t' = t) by congruence. subst t'. reflexivity.
Qed.
Lemma eligible_stands : forall m ws g, eligible m ws g <-> exists p, stands m ws p g.
Proof.
  intros m ws g. split.
  - intros (p & gs & f & rest & t & I & G & Ig & E & F & T & W & R).
    eexists (mkPtr p _ _ _ _ _ _). exists gs. cbn [pt_path]. split; [exact I|]. split; [exact G|]. split; [exact Ig|].
    apply group_ptr_some. exists f, rest, t. repeat (split; [assumption|]). reflexivity.
  - intros (q & gs & I & G & Ig & E). apply group_ptr_some in E. destruct E as (f & rest & t & E & F & T & W & R & EQ).
    exists (pt_path q), gs, f, rest, t. auto 10.
Qed.
Lemma stands_key : forall m ws p g, stands m ws p g -> gkey m g = Some (pt_time p, pt_apid p, pt_seqid p).
Proof.
  intros m ws p g (gs & _ & _ & _ & E). apply group_ptr_some in E. destruct E as (f & rest & t & E & F & T & W & R & EQ).
  unfold gkey. rewrite E, T, EQ. reflexivity.
Qed.
Lemma stands_order : forall m ws p g, stands m ws p g -> pt_order p = order_of m (pt_apid p).
Proof.
  intros m ws p g (gs & _ & _ & _ & E). apply group_ptr_some in E. destruct E as (f & rest & t & E & F & T & W & R & EQ).
  rewrite EQ. reflexivity.
Qed.

Lemma write_ok : forall m ws readers l sel,
  (forall p, In p (mg_paths m) -> exists bs, aget p readers = Some bs /\ file_holds bs (ws p)) ->
  Forall2 (stands m ws) l sel ->
  write_groups readers l = Val (Ok (concat (map group_bytes sel))).
Proof.
  intros m ws readers l sel HR F. induction F as [|p g l sel H F IH]; [reflexivity|].
  destruct H as (gs & I & G & Ig & E). destruct (HR _ I) as (bs & A & H). cbn [write_groups]. rewrite A.
  apply group_ptr_some in E. destruct E as (f & rest & t & E & _ & _ & _ & _ & EQ).
  destruct (group_span bs _ _ _ _ _ H G Ig E) as [LE FE].
  assert (SZ : pt_size p = list_sum (map (fun p => total_len (p_header p)) (g_packets g))) by (rewrite EQ; reflexivity).
  assert (OF : pt_offset p = p_offset f) by (rewrite EQ; reflexivity). clear EQ.
  rewrite OF, SZ. destruct (Nat.ltb_spec (length (skipn (p_offset f) bs)) (list_sum (map (fun p => total_len (p_header p)) (g_packets g)))) as [C|_]; [lia|].
  rewrite IH, FE. reflexivity.
Qed.

(* ---- all together ---- *)
Lemma Forall_choose : forall A B (P : A -> B -> Prop) l, Forall (fun a => exists b, P a b) l -> exists l', Forall2 P l l'.
Proof.
  induction 1 as [|a l [b H] _ [l' IH]]; [exists []; constructor|exists (b :: l'); constructor; assumption].
Qed.
Lemma merge_main : forall h fs m ws, hash_ok h -> readable fs m ws ->
  exists l sel, Forall2 (stands m ws) l sel /\ StronglySorted kle l /\ NoDup (map pkey l) /\
    (forall p g, stands m ws p g -> In (pkey p) (map pkey l)) /\
    merge h fs m = Val (Ok (concat (map group_bytes sel))).
Proof.
  intros h fs m ws [HR HI] RD. unfold merge.
  destruct (open_readers_ok fs (mg_paths m) []) as (r & ER & ND & HM & HK).
  { intros p I E. destruct (RD p I) as (bs & E' & _). congruence. }
  { constructor. }
  { intros p bs []. }
  rewrite ER. set (r' := ho_readers h r). assert (PR : Permutation r r') by apply HR.
  assert (FH : Forall (fun r => file_holds (snd r) (ws (fst r))) r').
  { apply (Permutation_Forall PR). apply Forall_forall. intros [p bs] I. cbn [fst snd].
    assert (IP : In p (mg_paths m)).
    { destruct (HK p) as [K _]. destruct K as [K|[]]; [apply (in_map fst) in I; exact I|exact K]. }
    destruct (RD p IP) as (bs' & E & H). rewrite (HM _ _ I) in E. injection E as ->. exact H. }
  destruct (build_index_ok m ws r' [] [] FH picks_nil) as (gss & idx & F2 & EB & PK). rewrite EB. cbn [obind app] in *.
  set (l := sort_index (ho_index h idx)).
  assert (PL : Permutation idx l) by (etransitivity; [apply HI|apply sort_perm]).
  destruct PK as (N & S & C).
  assert (IQ : forall q, In q (all_ptrs m ws (map fst r') gss) <-> exists g, stands m ws q g).
  { intro q. rewrite (in_all_ptrs _ _ _ _ _ F2).
    assert (KP : forall p, In p (map fst r') <-> In p (mg_paths m)).
    { intro p. rewrite <- (Permutation_map fst PR), HK. cbn [map In]. tauto. }
    split.
    - intros (p & gs & g & I & G & Ig & E). exists g, gs. assert (pt_path q = p).
      { apply group_ptr_some in E. destruct E as (f & rest & t & _ & _ & _ & _ & _ & ->). reflexivity. }
      subst p. rewrite <- KP. auto.
    - intros (g & gs & I & G & Ig & E). exists (pt_path q), gs, g. rewrite KP. auto. }
  destruct (Forall_choose _ _ (stands m ws) l) as [sel FS].
  { apply Forall_forall. intros q I. apply IQ, S. apply (Permutation_in _ (Permutation_sym PL)). exact I. }
  exists l, sel. split; [exact FS|]. split; [apply sort_sorted|]. split; [|split].
  - apply (Permutation_NoDup (Permutation_map pkey PL)). exact N.
  - intros p g H. apply (Permutation_in _ (Permutation_map pkey PL)). apply C, IQ. exists g. exact H.
  - eapply write_ok; [|exact FS]. intros p IP. destruct (RD p IP) as (bs & E & H). exists bs. split; [|exact H].
    apply aget_nodup; [exact ND|]. assert (IK : In p (map fst r)) by (apply HK; left; exact IP).
    apply in_map_iff in IK. destruct IK as ([p' bs'] & EP & I). cbn [fst] in EP. subst p'.
    assert (fs p = Some bs') by (apply HM; exact I). replace bs with bs' by congruence. exact I.
Qed.
Lemma main_selection : forall m ws l sel, Forall2 (stands m ws) l sel -> NoDup (map pkey l) ->
  (forall p g, stands m ws p g -> In (pkey p) (map pkey l)) -> selection m ws sel.
Proof.
  intros m ws l sel F N C. split; [|split].
  - clear N C. induction F; constructor; [apply eligible_stands; eauto|assumption].
  - clear C. revert N. induction F as [|p g l sel H F IH]; cbn [map]; intro N; [constructor|].
    inversion N as [|? ? N1 N2]; subst. constructor; [|apply IH; exact N2].
    intro I. apply N1. clear -I F H. apply in_map_iff in I. destruct I as (g' & E & I).
    revert I. induction F as [|p' g'' l sel H' F IHF]; intros []; cbn [map].
    + subst g''. left. rewrite (stands_key _ _ _ _ H), (stands_key _ _ _ _ H') in E. unfold pkey. injection E as -> -> ->. reflexivity.
    + right. auto.
  - intros g E. apply eligible_stands in E. destruct E as [p H]. assert (I := C p g H). clear C N.
    rewrite (stands_key _ _ _ _ H). induction F as [|p' g' l sel H' F IHF]; cbn [map] in I; [destruct I|].
    destruct I as [I|I].
    + exists g'. split; [left; reflexivity|]. rewrite (stands_key _ _ _ _ H'). unfold pkey in I. injection I as -> -> ->. reflexivity.
    + destruct (IHF I) as (g2 & I2 & E2). exists g2. split; [right; exact I2|exact E2].
Qed.
