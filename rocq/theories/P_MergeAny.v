(* C95: the merger with times of both time scales *)
From Coq Require Import Permutation Floats.SpecFloat.
From Verif Require Import Base S_Bits S_Packet S_Timecode M_Packet M_Group M_Timecode M_Reader M_Merge M_MergeTd M_MergeAny
  S_Group S_Merge S_AnyFile S_MergeTd S_MergeAny L_Base L_Bits L_Packet L_Group L_Merge P_Timecode P_Merge P_AnyFile P_MergeTd.
Open Scope nat_scope.

Section Any.
Context (instant : epoch -> Z) (ovf : bool) (td : tdecoder).
(* it panics where merge_td does *)
Lemma time_any_td : forall p, time_any instant ovf td p = Panic <-> td_time ovf td p = Panic.
Proof. intro p. unfold time_any, td_time. destruct (tdecoder_decode ovf td p) as [[e|e]|]; split; intro; try discriminate; reflexivity. Qed.
Lemma ptr_any_panic : forall m path g, group_ptr_any instant ovf td m path g = Panic <-> group_ptr_td ovf td m path g = Panic.
Proof.
  intros m path g. rewrite ptr_td_panic. unfold group_ptr_any, starts. destruct (g_packets g) as [|p rest].
  - split; [discriminate|]. intros (p & (rest & E & _) & _). discriminate.
  - destruct (is_first p || is_standalone p) eqn:K; cbn [negb].
    + pose proof (time_any_td p) as T. destruct (time_any instant ovf td p) as [[t|]|]; cbn [obind].
      * split; [|intros (p' & (rest' & E & _) & C); injection E as <- <-; apply T in C; discriminate].
        destruct (t <? from_any instant m)%Z; [discriminate|]. destruct (to_any instant m <=? t)%Z; [discriminate|]. destruct (negb _ && negb _); discriminate.
      * split; [discriminate|intros (p' & (rest' & E & _) & C); injection E as <- <-; apply T in C; discriminate].
      * split; [|reflexivity]. intros _. exists p. split; [exists rest; auto|apply T; reflexivity].
    + split; [discriminate|]. intros (p' & (rest' & E & K') & _). injection E as <- <-. congruence.
Qed.
Lemma ptrs_any_panic : forall m path gs, group_ptrs_any instant ovf td m path gs = Panic <-> group_ptrs_td ovf td m path gs = Panic.
Proof.
  intros m path gs. induction gs as [|g gs IH]; cbn [group_ptrs_any group_ptrs_td]; [split; discriminate|].
  pose proof (ptr_any_panic m path g) as P. destruct (group_ptr_any instant ovf td m path g), (group_ptr_td ovf td m path g); cbn [obind].
  - destruct (group_ptrs_any instant ovf td m path gs), (group_ptrs_td ovf td m path gs); cbn [obind].
    + split; discriminate.
    + discriminate (proj2 IH eq_refl).
    + discriminate (proj1 IH eq_refl).
    + tauto.
  - discriminate (proj2 P eq_refl).
  - discriminate (proj1 P eq_refl).
  - tauto.
Qed.
Lemma pointers_any_panic : forall m path bs, file_pointers_any instant ovf td m path bs = Panic <-> file_pointers_td ovf td m path bs = Panic.
Proof.
  intros m path bs. unfold file_pointers_any, file_pointers_td. destruct (file_packets bs) as [ps|]; cbn [obind]; [|tauto].
  destruct (file_groups ps) as [gs|]; cbn [obind]; [|tauto]. pose proof (ptrs_any_panic m path gs) as P.
  destruct (group_ptrs_any instant ovf td m path gs), (group_ptrs_td ovf td m path gs); cbn [obind]; try tauto.
  - split; discriminate.
  - discriminate (proj2 P eq_refl).
  - discriminate (proj1 P eq_refl).
Qed.
Lemma index_any_panic : forall m readers i j, build_index_any instant ovf td m readers i = Panic <-> build_index_td ovf td m readers j = Panic.
Proof.
  intros m readers. induction readers as [|[p bs] readers IH]; intros i j; cbn [build_index_any build_index_td]; [split; discriminate|].
  pose proof (pointers_any_panic m p bs) as P. destruct (file_pointers_any instant ovf td m p bs), (file_pointers_td ovf td m p bs); cbn [obind]; try tauto.
  - apply IH.
  - discriminate (proj2 P eq_refl).
  - discriminate (proj1 P eq_refl).
Qed.
Lemma ptrs_any_paths : forall m path gs l, group_ptrs_any instant ovf td m path gs = Val l -> Forall (fun q => pt_path q = path) l.
Proof.
  intros m path gs. induction gs as [|g gs IH]; intros l H; cbn [group_ptrs_any] in H; [injection H as <-; constructor|].
  destruct (group_ptr_any instant ovf td m path g) as [o|] eqn:G; cbn [obind] in H; [|discriminate].
  destruct (group_ptrs_any instant ovf td m path gs) as [l'|]; cbn [obind] in H; [|discriminate]. specialize (IH l' eq_refl).
  destruct o as [q|]; injection H as <-; [|exact IH]. constructor; [|exact IH].
  unfold group_ptr_any in G. destruct (g_packets g) as [|p rest]; [discriminate|]. destruct (negb (is_first p || is_standalone p)); [discriminate|].
  destruct (time_any instant ovf td p) as [[t|]|]; cbn [obind] in G; try discriminate.
  destruct (t <? from_any instant m)%Z; [discriminate|]. destruct (to_any instant m <=? t)%Z; [discriminate|]. destruct (negb _ && negb _); [discriminate|].
  injection G as <-. reflexivity.
Qed.
Lemma fold_insert_in : forall q s index, In q (fold_left set_insert s index) -> In q index \/ In q s.
Proof.
  intro q. induction s as [|x s IH]; intros index J; cbn [fold_left] in J; [left; exact J|].
  apply IH in J. destruct J as [J|J]; [|right; right; exact J]. unfold set_insert in J. destruct (existsb _ _); [left; exact J|].
  apply in_app_or in J. destruct J as [J|[J|[]]]; [left; exact J|right; left; exact J].
Qed.
Lemma index_any_paths : forall m readers index l, build_index_any instant ovf td m readers index = Val l ->
  forall q, In q l -> In q index \/ In (pt_path q) (map fst readers).
Proof.
  intros m readers. induction readers as [|[p b] readers IH]; intros index l H q I; cbn [build_index_any] in H.
  - injection H as <-. left. exact I.
  - unfold file_pointers_any in H. destruct (file_packets b) as [ps|]; cbn [obind] in H; [|discriminate].
    destruct (file_groups ps) as [gs|]; cbn [obind] in H; [|discriminate].
    destruct (group_ptrs_any instant ovf td m p gs) as [l'|] eqn:G; cbn [obind] in H; [|discriminate].
    destruct (IH _ _ H q I) as [J|J]; [|right; right; exact J].
    assert (U : In q index \/ In q l').
    { pose proof (proj1 (proj2 (collect_picks l')) q) as Q. unfold set_union in J. destruct (length (set_collect l') <=? length index); apply fold_insert_in in J; tauto. }
    destruct U as [U|U]; [left; exact U|]. right. left. apply ptrs_any_paths in G. rewrite Forall_forall in G. symmetry. apply G. exact U.
Qed.
Lemma merge_any_panic : forall h fs m, hash_ok h -> (merge_any instant ovf td h fs m = Panic <-> merge_td ovf td h fs m = Panic).
Proof.
  intros h fs m H. unfold merge_any, merge_td. destruct (open_readers fs (mg_paths m) []) as [rd|e] eqn:E; [|tauto].
  assert (W : forall index l, (forall q, In q index -> In (pt_path q) (map fst (ho_readers h rd))) -> index = l ->
     write_groups rd (sort_index (ho_index h l)) <> Panic).
  { intros index l P <-.
    assert (Q : forall l', (forall q, In q l' -> In q index) -> write_groups rd l' <> Panic).
    { induction l' as [|q l' IH]; intros I; cbn [write_groups]; [discriminate|].
      pose proof (P q (I q (or_introl eq_refl))) as J. 
      assert (J' : In (pt_path q) (map fst rd)) by (eapply Permutation_in; [apply Permutation_map; symmetry; apply (proj1 H)|exact J]).
      destruct (aget (pt_path q) rd) as [b|] eqn:A; [|exfalso; apply aget_none in A; apply A; exact J'].
      destruct (_ <? _); [discriminate|]. specialize (IH (fun x Hx => I x (or_intror Hx))).
      destruct (write_groups rd l') as [[o|e]|]; cbn; [discriminate|discriminate|contradiction]. }
    apply Q. intros q J. eapply Permutation_in; [symmetry; apply (proj2 H)|]. eapply Permutation_in; [symmetry; apply sort_perm|exact J]. }
  pose proof (index_any_panic m (ho_readers h rd) [] []) as P.
  destruct (build_index_any instant ovf td m (ho_readers h rd) []) as [i|] eqn:B1, (build_index_td ovf td m (ho_readers h rd) []) as [j|] eqn:B2; cbn [obind].
  - split; intro C; exfalso.
    + eapply (W i i); [|reflexivity|exact C]. intros q I. destruct (index_any_paths _ _ _ _ B1 q I) as [[]|J]. exact J.
    + eapply (W j j); [|reflexivity|exact C]. intros q I. destruct (index_td_paths _ _ _ _ _ _ B2 q I) as [[]|J]. exact J.
  - discriminate (proj2 P eq_refl).
  - discriminate (proj1 P eq_refl).
  - tauto.
Qed.

(* ---- without a panic: merging with the instants as times ---- *)
Definition key_time (m : merger) (p : packet) : option Z :=
  match tdecoder_decode ovf td p with
  | Val (Ok e) => if ((from_any instant m <=? instant e) && (instant e <? to_any instant m))%Z then Some (instant e) else None
  | _ => None
  end.
Definition as_plain (m m' : merger) : merger :=
  mkMerger (mg_paths m) (key_time m') (mg_order m) None (Some (Z.to_N (to_any instant m' / 1000 + 1))) (mg_apids m).
Lemma ptrs_any_same : forall m path gs, (0 <= from_any instant m)%Z -> (forall g p, In g gs -> starts g p -> tdecoder_decode ovf td p <> Panic) ->
  group_ptrs_any instant ovf td m path gs = Val (filter_map_opt (group_ptr (as_plain m m) path) gs).
Proof.
  intros m path gs Z. induction gs as [|g gs IH]; intros H; cbn [group_ptrs_any filter_map_opt]; [reflexivity|].
  assert (E : group_ptr_any instant ovf td m path g = Val (group_ptr (as_plain m m) path g)).
  { unfold group_ptr_any, group_ptr. destruct (g_packets g) as [|p rest] eqn:E; [reflexivity|].
    destruct (is_first p || is_standalone p) eqn:K; [|reflexivity]. cbn [negb].
    assert (NP : tdecoder_decode ovf td p <> Panic) by (apply (H g p); [left; reflexivity|exists rest; auto]).
    unfold as_plain at 1; cbn [mg_time]. unfold key_time, time_any. destruct (tdecoder_decode ovf td p) as [[e|e]|]; cbn [obind]; [|reflexivity|congruence].
    destruct (Z.ltb_spec (instant e) (from_any instant m)) as [L1|L1], (Z.leb_spec (from_any instant m) (instant e)) as [L2|L2]; try lia; cbn [andb]; [reflexivity|].
    destruct (Z.leb_spec (to_any instant m) (instant e)) as [L3|L3], (Z.ltb_spec (instant e) (to_any instant m)) as [L4|L4]; try lia; [reflexivity|].
    unfold from_nanos, to_nanos, as_plain at 1 2; cbn [mg_from mg_to].
    destruct (Z.ltb_spec (instant e) NANOS_1900) as [L5|L5]; [unfold NANOS_1900 in L5; lia|].
    rewrite Z2N.id by (pose proof (Z.div_pos (to_any instant m) 1000); lia).
    destruct (Z.leb_spec ((to_any instant m / 1000 + 1) * 1000) (instant e)) as [L6|L6].
    { pose proof (Z.div_mod (to_any instant m) 1000). pose proof (Z.mod_pos_bound (to_any instant m) 1000). lia. }
    unfold apid_set, order_of, as_plain; cbn [mg_apids mg_order]. destruct (negb _ && negb _); reflexivity. }
  rewrite E. cbn [obind]. rewrite IH by (intros; eapply H; [right; eassumption|eassumption]). cbn [obind]. destruct (group_ptr (as_plain m m) path g); reflexivity.
Qed.
End Any.

Theorem C95_panics : forall instant ovf d regs h fs m, hash_ok h -> (forall p bs, fs p = Some bs -> bytes_ok bs) ->
  (merge_any instant ovf (decoder d regs) h fs m = Panic <->
   (forall p, In p (mg_paths m) -> fs p <> None) /\
   exists p bs, In p (mg_paths m) /\ fs p = Some bs /\
     ((exists ws, too_big bs ws) \/
      exists ws gs g q f, file_holds bs ws /\ grouping (packets_at 0 ws) gs /\ In g gs /\ begins_with g q /\
        format_for d regs (apid (p_header q)) f /\ time_panics ovf f (skipn 6 (p_data q)))).
Proof. intros instant ovf d regs h fs m H B. rewrite (merge_any_panic instant ovf (decoder d regs) h fs m H). apply td_panics; assumption. Qed.
Print Assumptions C95_panics.

Lemma any_plain : forall instant ovf d regs h fs m ws, (0 <= instant (lower m))%Z -> hash_ok h -> readable fs m ws -> no_panics ovf d regs m ws ->
  merge_any instant ovf (decoder d regs) h fs m = merge h fs (as_plain instant ovf (decoder d regs) m m).
Proof.
  intros instant ovf d regs h fs m ws Z H R NP. unfold merge_any, merge.
  change (mg_paths (as_plain instant ovf (decoder d regs) m m)) with (mg_paths m).
  assert (O : forall p, In p (mg_paths m) -> fs p <> None) by (intros p I; destruct (R p I) as (bs & F & _); congruence).
  destruct (open_readers_ok fs (mg_paths m) [] O) as (rd & E & _ & HR & KR); [constructor|intros p bs []|]. rewrite E.
  assert (B : forall p bs, In (p, bs) (ho_readers h rd) -> In p (mg_paths m) /\ file_holds bs (ws p)).
  { intros p bs I. assert (I' : In (p, bs) rd) by (eapply Permutation_in; [symmetry; apply H|exact I]).
    assert (K : In p (map fst rd)) by (apply (in_map fst) in I'; exact I'). apply KR in K. destruct K as [K|[]].
    split; [exact K|]. destruct (R p K) as (bs' & F & FH). rewrite (HR _ _ I') in F. injection F as ->. exact FH. }
  assert (X : forall index, build_index_any instant ovf (decoder d regs) m (ho_readers h rd) index = build_index (as_plain instant ovf (decoder d regs) m m) (ho_readers h rd) index).
  { clear E. revert B. generalize (ho_readers h rd). intros l. induction l as [|[p bs] l IH]; intros B index; cbn [build_index_any build_index]; [reflexivity|].
    assert (F : file_pointers_any instant ovf (decoder d regs) m p bs = file_pointers (as_plain instant ovf (decoder d regs) m m) p bs).
    { unfold file_pointers_any, file_pointers. destruct (B p bs (or_introl eq_refl)) as [IP BF]. rewrite (file_packets_ok _ _ BF). cbn [obind].
      destruct (grouping_total (packets_at 0 (ws p))) as [gs G]. rewrite (file_groups_ok _ _ G). cbn [obind].
      rewrite ptrs_any_same; [reflexivity| |].
      - unfold from_any. unfold lower in Z. exact Z.
      - intros g q I K. destruct (packets_wire _ _ q (group_first_in _ _ _ _ G I K)) as [W1 W2]; [apply BF|].
        destruct (format_for_ex d regs (apid (p_header q))) as (f & F & _). rewrite (decoder_decode _ _ _ _ _ F) by lia.
        rewrite panics_exact by (apply bytes_ok_skipn; exact W1). apply (NP p gs g q f); auto. apply starts_begins. exact K. }
    rewrite F. destruct (file_pointers _ p bs); cbn [obind]; [|reflexivity]. apply IH. intros; apply B; right; assumption. }
  rewrite X. reflexivity.
Qed.
Lemma due_plain : forall instant ovf d regs m ws g k, (0 <= instant (lower m))%Z ->
  (forall p, In p (mg_paths m) -> Forall wire_ok (ws p)) ->
  (eligible (as_plain instant ovf (decoder d regs) m m) ws g /\ gkey (as_plain instant ovf (decoder d regs) m m) g = Some k <->
   due instant ovf d regs m ws g k).
Proof.
  intros instant ovf d regs m ws g k Z W.
  assert (D : forall p gs f rest, In p (mg_paths m) -> grouping (packets_at 0 (ws p)) gs -> In g gs -> g_packets g = f :: rest ->
     (sequence_flags (p_header f) = 1 \/ sequence_flags (p_header f) = 3)%N -> 7 <= length (p_data f)).
  { intros p gs f rest I G J E K. eapply packets_wire; [|apply (W p I)]. eapply group_first_in; [exact G|exact J|]. apply starts_begins. exists rest. auto. }
  assert (B1 : from_any instant m = instant (lower m)) by reflexivity.
  assert (B2 : to_any instant m = instant (upper m)) by reflexivity.
  split.
  - intros [(p & gs & f & rest & t & I & G & J & E & K & T & _ & R) GK]. change (mg_paths _) with (mg_paths m) in I.
    pose proof (D _ _ _ _ I G J E K) as L. unfold gkey in GK. rewrite E, T in GK. injection GK as <-.
    cbn [as_plain mg_time] in T. unfold key_time in T. rewrite B1, B2 in T.
    destruct (format_for_ex d regs (apid_of f)) as (fm & F & _).
    rewrite (decoder_decode _ _ _ _ _ F) in T by lia.
    destruct (timecode_decode ovf fm (skipn 6 (p_data f))) as [[e|e]|] eqn:TD; [|discriminate|discriminate].
    destruct (Z.leb_spec (instant (lower m)) (instant e)) as [L1|L1]; [|discriminate].
    destruct (Z.ltb_spec (instant e) (instant (upper m))) as [L2|L2]; [|discriminate]. injection T as <-.
    exists p, gs, f, rest, e. do 5 (split; [assumption|]). split; [exists fm; auto|]. split; [lia|]. split; [exact R|reflexivity].
  - intros (p & gs & f & rest & e & I & G & J & E & K & (fm & F & TD) & LT & R & ->).
    pose proof (D _ _ _ _ I G J E K) as L.
    assert (T : mg_time (as_plain instant ovf (decoder d regs) m m) f = Some (instant e)).
    { cbn [as_plain mg_time]. unfold key_time. rewrite (decoder_decode _ _ _ _ _ F) by lia. rewrite TD, B1, B2.
      destruct (Z.leb_spec (instant (lower m)) (instant e)) as [L1|L1]; [|lia].
      destruct (Z.ltb_spec (instant e) (instant (upper m))) as [L2|L2]; [|lia]. reflexivity. }
    split.
    + exists p, gs, f, rest, (instant e). do 5 (split; [assumption|]). split; [exact T|]. split; [|exact R].
      unfold within. cbn [as_plain mg_from mg_to]. rewrite B2. split; [lia|].
      rewrite Z2N.id by (pose proof (Z.div_pos (instant (upper m)) 1000); lia).
      pose proof (Z.div_mod (instant (upper m)) 1000). pose proof (Z.mod_pos_bound (instant (upper m)) 1000). lia.
    + unfold gkey. rewrite E, T. reflexivity.
Qed.
Lemma keys_of : forall (P : pgroup -> Z * N * N -> Prop) (key : pgroup -> option (Z * N * N)) sel,
  (forall g, In g sel -> exists k, P g k /\ key g = Some k) -> exists keys, Forall2 P sel keys /\ map key sel = map Some keys.
Proof.
  intros P key sel. induction sel as [|g sel IH]; intros H; [exists []; split; constructor|].
  destruct (H g (or_introl eq_refl)) as (k & A & B). destruct IH as (keys & C & D); [intros; apply H; right; assumption|].
  exists (k :: keys). split; [constructor; assumption|]. cbn [map]. rewrite B, D. reflexivity.
Qed.
Lemma before_map : forall A B (f : A -> B) l x y, before (map f l) x y -> exists a b, before l a b /\ f a = x /\ f b = y.
Proof.
  intros A B f l x y (l1 & l2 & l3 & E). apply map_eq_app in E. destruct E as (a1 & r & -> & <- & E).
  apply map_eq_cons in E. destruct E as (a & r' & -> & <- & E). apply map_eq_app in E. destruct E as (a2 & r'' & -> & <- & E).
  apply map_eq_cons in E. destruct E as (b & a3 & -> & <- & E). exists a, b. split; [exists a1, a2, a3; reflexivity|auto].
Qed.
Lemma before_map_in : forall A B (f : A -> B) l x y, before l x y -> before (map f l) (f x) (f y).
Proof. intros A B f l x y (l1 & l2 & l3 & ->). exists (map f l1), (map f l2), (map f l3). rewrite !map_app. cbn [map]. rewrite map_app. reflexivity. Qed.

(* The files can be read and no time panics: the output is one group for each key that is due, ordered by instant, and groups
   of one instant by the order values of their apids (C19). *)
Theorem C95_merge : forall instant ovf d regs h fs m0 order ws, mg_order m0 = [] -> 
  let m := with_apid_order m0 order in
  (0 <= instant (lower m))%Z -> hash_ok h -> readable fs m ws -> no_panics ovf d regs m ws ->
  exists sel keys, merge_any instant ovf (decoder d regs) h fs m = Val (Ok (concat (map group_bytes sel))) /\
    Forall2 (due instant ovf d regs m ws) sel keys /\ NoDup keys /\
    (forall g k, due instant ovf d regs m ws g k -> In k keys) /\
    forall t t' a a' s s' o o', before keys (t, a, s) (t', a', s') -> order_value order a o -> order_value order a' o' ->
      (t < t' \/ t = t' /\ o <= o')%Z.
Proof.
  intros instant ovf d regs h fs m0 order ws E0 m Z H R NP.
  assert (W : forall p, In p (mg_paths m) -> Forall wire_ok (ws p)) by (intros p I; destruct (R p I) as (bs & _ & FH); apply FH).
  rewrite (any_plain instant ovf d regs h fs m ws Z H R NP).
  set (q0 := as_plain instant ovf (decoder d regs) m0 m).
  assert (Q : as_plain instant ovf (decoder d regs) m m = with_apid_order q0 order).
  { unfold q0, as_plain, m, with_apid_order. cbn [mg_paths mg_time mg_order mg_from mg_to mg_apids]. rewrite E0. reflexivity. }
  destruct (C19_merge_sorted h fs q0 order ws) as (sel & EM & (SE & ND & SC) & SO).
  - unfold q0. cbn [as_plain mg_order]. exact E0.
  - exact H.
  - intros p I. apply (R p I).
  - rewrite <- Q in EM, SE, ND, SC, SO. rewrite Forall_forall in SE.
    destruct (keys_of (due instant ovf d regs m ws) (gkey (as_plain instant ovf (decoder d regs) m m)) sel) as (keys & K1 & K2).
    { intros g I. pose proof (SE g I) as EL. assert (exists k, gkey (as_plain instant ovf (decoder d regs) m m) g = Some k) as (k & GK).
      { destruct EL as (p & gs & f & rest & t & _ & _ & _ & E & _ & T & _). unfold gkey. rewrite E, T. eauto. }
      exists k. split; [|exact GK]. apply due_plain; auto. }
    exists sel, keys. split; [exact EM|]. split; [exact K1|]. split; [rewrite K2 in ND; eapply NoDup_map_inv; exact ND|]. split.
    + intros g k D. apply due_plain in D; [|exact Z|exact W]. destruct D as [EL GK]. destruct (SC g EL) as (g' & I & E). rewrite GK in E.
      apply (in_map (gkey (as_plain instant ovf (decoder d regs) m m))) in I. rewrite E, K2 in I. apply in_map_iff in I. destruct I as (k' & [= ->] & I). exact I.
    + intros t t' a a' s s' o o' BF OA OA'. apply (before_map_in _ _ Some) in BF. rewrite <- K2 in BF. apply before_map in BF.
      destruct BF as (x & y & BF & GX & GY). eapply SO; eassumption.
Qed.
Print Assumptions C95_merge.

(* Without ties of instant and order value between groups of different contents, the output does not depend on the hash order. *)
Theorem C95_deterministic : forall instant ovf d regs h h' fs m ws, (0 <= instant (lower m))%Z -> hash_ok h -> hash_ok h' ->
  readable fs m ws -> no_panics ovf d regs m ws ->
  (forall g g' t a s a' s', due instant ovf d regs m ws g (t, a, s) -> due instant ovf d regs m ws g' (t, a', s') ->
     order_of m a = order_of m a' -> a = a' /\ s = s' /\ group_bytes g = group_bytes g') ->
  merge_any instant ovf (decoder d regs) h fs m = merge_any instant ovf (decoder d regs) h' fs m.
Proof.
  intros instant ovf d regs h h' fs m ws Z H H' R NP U.
  assert (W : forall p, In p (mg_paths m) -> Forall wire_ok (ws p)) by (intros p I; destruct (R p I) as (bs & _ & FH); apply FH).
  rewrite (any_plain instant ovf d regs h fs m ws Z H R NP), (any_plain instant ovf d regs h' fs m ws Z H' R NP).
  apply C22_deterministic_without_ties with (ws := ws); [exact H|exact H'|exact R|].
  intros g g' t a s a' s' EL EL' GK GK' O. apply (U g g' t a s a' s'); [| |exact O]; apply due_plain; auto.
Qed.
Print Assumptions C95_deterministic.

(* If hifitime's order is that of the numbers alone, as it is for the times of one scale, this is the merger of C89. *)
Lemma ptr_one : forall ovf td m path g, group_ptr_any ep_nanos ovf td m path g = group_ptr_td ovf td m path g.
Proof. reflexivity. Qed.
Theorem C95_one_scale : forall ovf td h fs m, merge_any ep_nanos ovf td h fs m = merge_td ovf td h fs m.
Proof.
  intros ovf td h fs m. unfold merge_any, merge_td. destruct (open_readers fs (mg_paths m) []) as [rd|e]; [|reflexivity].
  assert (G : forall path gs, group_ptrs_any ep_nanos ovf td m path gs = group_ptrs_td ovf td m path gs).
  { intros path gs. induction gs as [|g gs IH]; cbn [group_ptrs_any group_ptrs_td]; [reflexivity|]. rewrite ptr_one, IH. reflexivity. }
  assert (X : forall readers index, build_index_any ep_nanos ovf td m readers index = build_index_td ovf td m readers index).
  { induction readers as [|[p bs] readers IH]; intros index; cbn [build_index_any build_index_td]; [reflexivity|].
    unfold file_pointers_any, file_pointers_td. destruct (file_packets bs) as [ps|]; cbn [obind]; [|reflexivity].
    destruct (file_groups ps) as [gs|]; cbn [obind]; [|reflexivity]. rewrite G. destruct (group_ptrs_td ovf td m p gs); cbn [obind]; [apply IH|reflexivity]. }
  rewrite X. reflexivity.
Qed.
Print Assumptions C95_one_scale.

(* ---- a concrete case: in 2018 TAI is 37 s ahead of UTC; from the midnight (UTC) of day 22000 ---- *)
Definition in_2018 (e : epoch) : Z := match ep_scale e with UTC => ep_nanos e + 37000000000 | TAI => ep_nanos e end%Z.
Definition cuc_wire (a sq secs : N) : wire_packet :=
  mkWire (mkHeader 0 0 true a 3 sq 4) [secs / 16777216; (secs / 65536) mod 256; (secs / 256) mod 256; secs mod 256; 0]%N.
Definition any_ws (p : N) : list wire_packet :=
  if (p =? 0)%N then [cuc_wire 900 5 1900800037; mg_wire 821 3 7 22000 [1]; cuc_wire 900 4 1900800036]%N
  else [mg_wire 821 3 8 22001 [2]; cuc_wire 900 6 1900886436; cuc_wire 900 5 1900800037]%N.
Definition any_fs (p : N) : option (list N) := Some (concat (map wire_bytes (any_ws p)) ++ [8; 0; 0]%N).
Definition any_regs : registered := [(Cuc 4 1 None, [900%N])].
Definition any_m0 : merger := mkMerger [0; 1]%N (fun _ => None) [] (Some (43184 * 86400 * 1000000)%N) None None.
Example C95_ex : mg_order any_m0 = [] /\ hash_ok reversed /\ readable any_fs (with_apid_order any_m0 [900%N]) any_ws /\
  (0 <= in_2018 (lower (with_apid_order any_m0 [900%N])))%Z /\
  no_panics true (Cds 2 2) any_regs (with_apid_order any_m0 [900%N]) any_ws /\
  (* same instant: the numbers of the two times differ, and the order of the apids decides *)
  merge_any in_2018 true (decoder (Cds 2 2) any_regs) reversed any_fs (with_apid_order any_m0 [900%N]) =
    Val (Ok (concat (map wire_bytes [mg_wire 821 3 7 22000 [1]; cuc_wire 900 5 1900800037; cuc_wire 900 6 1900886436; mg_wire 821 3 8 22001 [2]]%N))) /\
  (* taken as bare numbers they would be merged otherwise *)
  merge_any ep_nanos true (decoder (Cds 2 2) any_regs) reversed any_fs (with_apid_order any_m0 [900%N]) =
    Val (Ok (concat (map wire_bytes [mg_wire 821 3 7 22000 [1]; cuc_wire 900 4 1900800036; cuc_wire 900 5 1900800037; mg_wire 821 3 8 22001 [2]; cuc_wire 900 6 1900886436]%N))).
Proof.
  split; [reflexivity|]. split; [exact reversed_ok|]. split.
  { intros p _. eexists. split; [reflexivity|]. unfold any_ws. destruct (p =? 0)%N.
    - split; [repeat constructor|]. split; [repeat constructor; vm_compute; discriminate|].
      exists [8; 0; 0]%N. split; [reflexivity|]. split; [repeat constructor|]. split; [left; cbn; lia|cbn; lia].
    - split; [repeat constructor|]. split; [repeat constructor; vm_compute; discriminate|].
      exists [8; 0; 0]%N. split; [reflexivity|]. split; [repeat constructor|]. split; [left; cbn; lia|cbn; lia]. }
  split; [vm_compute; discriminate|]. split.
  { intros p gs g q f _ _ _ _ F (nd & ns & -> & _ & C). destruct F as [(b & ap & af & E & _)|[E _]].
    - destruct b as [|? [|? ?]]; discriminate E.
    - injection E as -> ->. lia. }
  split; vm_compute; reflexivity.
Qed.
