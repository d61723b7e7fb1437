(* Property C51: the diff command *)
From Coq Require Import Permutation Sorted.
From Verif Require Import Base S_Diff S_Bits M_Reader M_Packet M_Group S_Packet S_Group L_Base L_Packet M_Merge S_Merge L_Merge M_Cli S_Cli P_CliFilter.
Open Scope N_scope.


Lemma key_cmp_spec : forall a b, CompareSpec (a = b) (key_below a b) (key_below b a) (key_cmp a b).
Proof.
  intros [[a1 a2] a3] [[b1 b2] b3]. cbn. destruct (N.compare_spec a1 b1); [subst|constructor; lia..].
  destruct (N.compare_spec a2 b2); [subst|constructor; lia..]. destruct (N.compare_spec a3 b3); [subst; constructor; reflexivity|constructor; lia..].
Qed.
Lemma klt_trans : forall a b c, key_below a b -> key_below b c -> key_below a c.
Proof. intros [[a1 a2] a3] [[b1 b2] b3] [[c1 c2] c3]. cbn. lia. Qed.
Lemma klt_irrefl : forall a, ~ key_below a a.
Proof. intros [[a1 a2] a3]. cbn. lia. Qed.
Lemma kle_lt : forall a b c, key_upto a b -> key_below b c -> key_below a c.
Proof. intros a b c [H| ->] L; [eapply klt_trans; eassumption|exact L]. Qed.
Lemma lt_kle : forall a b c, key_below a b -> key_upto b c -> key_below a c.
Proof. intros a b c L [H| <-]; [eapply klt_trans; eassumption|exact L]. Qed.
Lemma kle_trans : forall a b c, key_upto a b -> key_upto b c -> key_upto a c.
Proof. intros a b c [H| ->] L; [left; eapply lt_kle; eassumption|exact L]. Qed.
Lemma key_le_kle : forall a b, key_le a b = true <-> key_upto a b.
Proof.
  intros a b. unfold key_le. destruct (key_cmp_spec a b) as [->|L|L]; split; intro H; try reflexivity; try discriminate.
  - right. reflexivity. - left. exact L. - exfalso. apply (klt_irrefl a). eapply kle_lt; eassumption.
Qed.
Lemma kle_total : forall a b, ~ key_upto a b -> key_upto b a.
Proof. intros a b H. destruct (key_cmp_spec a b) as [->|L|L]; [right; reflexivity|exfalso; apply H; left; exact L|left; exact L]. Qed.
Lemma kinsert_perm : forall p l, Permutation (p :: l) (key_insert p l).
Proof.
  induction l as [|q l IH]; cbn [key_insert]; [reflexivity|]. destruct (key_le p q); [reflexivity|].
  etransitivity; [apply perm_swap|]. constructor. exact IH.
Qed.
Lemma ksort_perm : forall l, Permutation l (key_sort l).
Proof. induction l as [|p l IH]; cbn; [constructor|]. etransitivity; [constructor; exact IH|apply kinsert_perm]. Qed.
Lemma ksort_sorted : forall l, StronglySorted key_upto (key_sort l).
Proof.
  induction l as [|p l IH]; cbn [key_sort fold_right]; [constructor|]. fold (key_sort l). revert IH. generalize (key_sort l). clear l.
  intros l H. induction H as [|q l Hl IH HF]; cbn [key_insert]; [repeat constructor|]. destruct (key_le p q) eqn:E.
  - apply key_le_kle in E. constructor; [constructor; assumption|]. constructor; [exact E|].
    eapply Forall_impl; [|exact HF]. intros x X. eapply kle_trans; eassumption.
  - constructor; [exact IH|]. assert (K : key_upto q p) by (apply kle_total; rewrite <- key_le_kle; congruence).
    apply (Permutation_Forall (kinsert_perm p l)). constructor; assumption.
Qed.

Section M.
Context {A : Type} (dec : forall x y : A, {x = y} + {x <> y}).
Notation "l -- r" := (minus dec l r) (at level 40).
Lemma count_remove : forall x y l, count_occ dec (remove_one dec x l) y = (count_occ dec l y - if dec x y then 1 else 0)%nat.
Proof.
  induction l as [|z l IH]; cbn [remove_one count_occ]; [destruct (dec x y); reflexivity|].
  destruct (dec x z) as [->|N].
  - destruct (dec z y); lia.
  - cbn [count_occ]. rewrite IH. destruct (dec z y), (dec x y); subst; try lia. contradiction.
Qed.
Lemma count_minus : forall r l y, count_occ dec (l -- r) y = (count_occ dec l y - count_occ dec r y)%nat.
Proof. induction r as [|x r IH]; intros l y; cbn [minus count_occ]; [lia|]. rewrite IH, count_remove. destruct (dec x y); lia. Qed.
Lemma minus_perm : forall l l' r r', Permutation l l' -> Permutation r r' -> Permutation (l -- r) (l' -- r').
Proof.
  intros l l' r r' A1 B1. rewrite (Permutation_count_occ dec) in *. intro x. rewrite !count_minus, A1, B1. reflexivity.
Qed.
Lemma differences_perm : forall l l' r r', Permutation l l' -> Permutation r r' -> differences dec l r = differences dec l' r'.
Proof.
  intros l l' r r' A1 B1. unfold differences.
  rewrite (Permutation_length (minus_perm _ _ _ _ A1 B1)), (Permutation_length (minus_perm _ _ _ _ B1 A1)). reflexivity.
Qed.
Lemma remove_absent : forall x l, ~ In x l -> remove_one dec x l = l.
Proof.
  induction l as [|y l IH]; intro N; cbn [remove_one]; [reflexivity|]. destruct (dec x y) as [->|]; [exfalso; apply N; left; reflexivity|].
  rewrite IH; [reflexivity|]. intro. apply N. right. assumption.
Qed.
Lemma minus_cons_absent : forall r x l, ~ In x r -> (x :: l) -- r = x :: (l -- r).
Proof.
  induction r as [|y r IH]; intros x l N; cbn [minus]; [reflexivity|]. cbn [remove_one]. destruct (dec y x) as [->|]; [exfalso; apply N; left; reflexivity|].
  apply IH. intro. apply N. right. assumption.
Qed.
Lemma diff_cons_l : forall x l r, ~ In x r -> differences dec (x :: l) r = S (differences dec l r).
Proof. intros x l r N. unfold differences. rewrite minus_cons_absent by exact N. cbn [minus length]. rewrite remove_absent by exact N. lia. Qed.
Lemma diff_cons_r : forall x l r, ~ In x l -> differences dec l (x :: r) = S (differences dec l r).
Proof. intros x l r N. unfold differences. rewrite (minus_cons_absent _ _ _ N). cbn [minus length]. rewrite remove_absent by exact N. lia. Qed.
Lemma diff_cons_both : forall x l r, differences dec (x :: l) (x :: r) = differences dec l r.
Proof. intros x l r. unfold differences. cbn [minus remove_one]. destruct (dec x x); [reflexivity|contradiction]. Qed.
Lemma minus_nil : forall r, [] -- r = [].
Proof. induction r; cbn; assumption || reflexivity. Qed.
Lemma diff_nil_l : forall r, differences dec [] r = length r.
Proof. intro r. unfold differences. rewrite minus_nil. reflexivity. Qed.
Lemma diff_nil_r : forall l, differences dec l [] = length l.
Proof. intro l. unfold differences. rewrite minus_nil. cbn. lia. Qed.
Lemma diff_same : forall l r, differences dec l r = 0%nat <-> Permutation l r.
Proof.
  intros l r. split.
  - intro H. apply (Permutation_count_occ dec). intro x. unfold differences in H.
    assert (A1 := count_minus r l x). assert (B1 := count_minus l r x).
    assert (l -- r = []) by (destruct (l -- r); [reflexivity|cbn in H; lia]). assert (r -- l = []) by (destruct (r -- l); [reflexivity|rewrite H0 in H; cbn in H; lia]).
    rewrite H0 in A1. rewrite H1 in B1. cbn in A1, B1. lia.
  - intro P. rewrite (differences_perm _ _ _ _ P (Permutation_refl r)).
    clear. induction r; [reflexivity|]. rewrite diff_cons_both. exact IHr.
Qed.
End M.

Notation diffs := (differences key_dec).
Notation times K l := (count_occ key_dec l K).
Lemma diff_loop_count : forall K fuel l r n, (length l + length r < fuel)%nat ->
  StronglySorted key_upto l -> StronglySorted key_upto r -> Forall (fun x => key_upto x K) l -> Forall (fun x => key_upto x K) r ->
  (l = [] /\ r = [] \/ In K l \/ In K r) ->
  diff_loop fuel (hd_error l) (tl l) (hd_error r) (tl r) n =
  Some (n + N.of_nat (diffs l r - if Nat.eq_dec (times K l) (times K r) then 0 else 1)).
Proof.
  intros K. induction fuel as [|fuel IH]; intros l r n HF SL SR BL BR HK; [lia|].
  destruct l as [|x l].
  { cbn [diff_loop hd_error tl]. rewrite diff_nil_l. f_equal. destruct r as [|y r]; cbn [tl length]; [cbn; lia|].
    destruct HK as [[_ C]|[[]|I]]; [discriminate|]. apply (count_occ_In key_dec) in I. cbn [count_occ] in *. destruct (Nat.eq_dec 0 _); lia. }
  destruct r as [|y r].
  { cbn [diff_loop hd_error tl]. rewrite diff_nil_r. f_equal. cbn [length].
    destruct HK as [[C _]|[I|[]]]; [discriminate|]. apply (count_occ_In key_dec) in I. cbn [count_occ] in *. destruct (Nat.eq_dec _ 0); lia. }
  cbn [diff_loop hd_error tl]. cbn [length] in HF.
  inversion SL as [|? ? SL' FL]; inversion SR as [|? ? SR' FR]; inversion BL as [|? ? BX BL']; inversion BR as [|? ? BY BR']; subst.
  destruct (key_cmp_spec x y) as [->|L|L].
  - rewrite IH; try assumption; [|lia|].
    + rewrite diff_cons_both. cbn [count_occ]. do 2 f_equal.
      destruct (key_dec y K); repeat match goal with |- context [Nat.eq_dec ?a ?b] => destruct (Nat.eq_dec a b) end; lia.
    + destruct (key_dec y K) as [->|NK].
      * destruct l as [|a l]; [destruct r as [|b r]; [left; auto|right; right]|right; left].
        -- left. inversion FR as [|? ? Q _]; inversion BR' as [|? ? Q' _]; subst. destruct Q as [Q|Q]; [|auto]. exfalso. apply (klt_irrefl K). eapply lt_kle; eassumption.
        -- left. inversion FL as [|? ? Q _]; inversion BL' as [|? ? Q' _]; subst. destruct Q as [Q|Q]; [|auto]. exfalso. apply (klt_irrefl K). eapply lt_kle; eassumption.
      * destruct HK as [[C _]|[[I|I]|[I|I]]]; try discriminate; try contradiction; auto.
  - assert (NX : ~ In x (y :: r)).
    { intros [->|I]; [exact (klt_irrefl _ L)|]. rewrite Forall_forall in FR. apply (klt_irrefl x). eapply lt_kle; [exact L|]. apply FR. exact I. }
    assert (XK : x <> K) by (intros ->; apply (klt_irrefl K); eapply lt_kle; eassumption).
    etransitivity; [apply (IH l (y :: r) (n + 1)); try assumption; [cbn [length]; lia|]|].
    + destruct HK as [[C _]|[[I|I]|I]]; try discriminate; try contradiction; auto.
    + rewrite diff_cons_l by exact NX. cbn [count_occ]. destruct (key_dec x K); [contradiction|]. f_equal.
      assert (D : (diffs l (y :: r) = 0 -> times K l = times K (y :: r))%nat).
      { intro D. apply diff_same in D. apply (Permutation_count_occ key_dec) with (x := K) in D. exact D. }
      cbn [count_occ] in D. destruct (Nat.eq_dec _ _); lia.
  - assert (NY : ~ In y (x :: l)).
    { intros [->|I]; [exact (klt_irrefl _ L)|]. rewrite Forall_forall in FL. apply (klt_irrefl y). eapply lt_kle; [exact L|]. apply FL. exact I. }
    assert (YK : y <> K) by (intros ->; apply (klt_irrefl K); eapply lt_kle; eassumption).
    etransitivity; [apply (IH (x :: l) r (n + 1)); try assumption; [cbn [length]; lia|]|].
    + destruct HK as [[C _]|[I|[I|I]]]; try discriminate; try contradiction; auto.
    + rewrite diff_cons_r by exact NY. cbn [count_occ]. destruct (key_dec y K); [contradiction|]. f_equal.
      assert (D : (diffs (x :: l) r = 0 -> times K (x :: l) = times K r)%nat).
      { intro D. apply diff_same in D. apply (Permutation_count_occ key_dec) with (x := K) in D. exact D. }
      cbn [count_occ] in D. destruct (Nat.eq_dec _ _); lia.
Qed.

(* ---- C51 ---- *)
Lemma diff_keys_ok : forall csum ws off, diff_keys csum (packets_at off ws) = Val (map (wkey csum) ws).
Proof.
  intros csum ws. induction ws as [|w ws IH]; intro off; cbn [packets_at diff_keys map]; [reflexivity|].
  cbn [p_data p_header]. rewrite slice_from_ok by (unfold wire_bytes, HDR_LEN; rewrite app_length, encode_length; lia). cbn [obind]. rewrite IH. cbn [obind].
  unfold wkey, wire_bytes, HDR_LEN. change 6%nat with (length (encode_header (w_header w))). rewrite skipn_app_exact. reflexivity.
Qed.
(* Two files of packets, not both without packets, K the greatest key: the number of differences
   reported is the true number, less one if K does not occur equally often on both sides *)
Theorem C51_exact_count : forall csum bl br wl wr K, file_holds bl wl -> file_holds br wr ->
  let l := map (wkey csum) wl in let r := map (wkey csum) wr in
  In K l \/ In K r -> (forall x, In x l \/ In x r -> key_upto x K) ->
  exists il ir, yields pdec_next (pdec_new (reader_of bl)) il /\ yields pdec_next (pdec_new (reader_of br)) ir /\
    diff_cmd csum il ir = Val (report (diffs l r - if Nat.eq_dec (times K l) (times K r) then 0 else 1)).
Proof.
  intros csum bl br wl wr K (HW & HL & tail & -> & HB & HI & HT) (HW' & HL' & tail' & -> & HB' & HI' & HT') l r IK MK.
  exists (map Ok (packets_at 0 wl)), (map Ok (packets_at 0 wr)).
  split; [apply decode_stream_plain; assumption|]. split; [apply decode_stream_plain; assumption|].
  unfold diff_cmd. rewrite !keep_ok_map, !diff_keys_ok. cbn [obind]. fold l r.
  replace (is_nil l && is_nil r) with false by (destruct l, r; try reflexivity; destruct IK as [[]|[]]).
  assert (PL := ksort_perm l). assert (PR := ksort_perm r).
  rewrite (diff_loop_count K); try apply ksort_sorted; try lia.
  - rewrite <- (differences_perm key_dec _ _ _ _ PL PR). rewrite (Permutation_count_occ key_dec) in PL, PR. rewrite <- (PL K), <- (PR K).
    set (n := (diffs l r - (if Nat.eq_dec (times K l) (times K r) then 0 else 1))%nat). rewrite N.add_0_l. destruct n; reflexivity.
  - apply (Permutation_Forall PL). apply Forall_forall. auto.
  - apply (Permutation_Forall PR). apply Forall_forall. auto.
  - right. destruct IK as [I|I]; [left|right]; eapply Permutation_in; eassumption.
Qed.
Print Assumptions C51_exact_count.
(* no false alarm *)
Theorem C51_equal_files : forall csum bl br wl wr, file_holds bl wl -> file_holds br wr ->
  Permutation (map (wkey csum) wl) (map (wkey csum) wr) -> wl <> [] ->
  exists il ir, yields pdec_next (pdec_new (reader_of bl)) il /\ yields pdec_next (pdec_new (reader_of br)) ir /\
    diff_cmd csum il ir = Val DiffOk.
Proof.
  intros csum bl br wl wr HL HR P NE.
  assert (MX : exists K, In K (map (wkey csum) wl) /\ forall x, In x (map (wkey csum) wl) -> key_upto x K).
  { destruct wl as [|w wl]; [contradiction|]. clear. cbn [map]. generalize (wkey csum w) as a. generalize (map (wkey csum) wl) as l. induction l as [|b l IH]; intro a.
    - exists a. split; [left; reflexivity|]. intros x [->|[]]. right. reflexivity.
    - destruct (IH b) as (K & I & M). destruct (key_cmp_spec a K) as [->|L|L].
      + exists K. split; [left; reflexivity|]. intros x [->|X]; [right; reflexivity|apply M; exact X].
      + exists K. split; [right; exact I|]. intros x [->|X]; [left; exact L|apply M; exact X].
      + exists a. split; [left; reflexivity|]. intros x [->|X]; [right; reflexivity|]. left. eapply kle_lt; [apply M; exact X|exact L]. }
  destruct MX as (K & I & M). destruct (C51_exact_count csum bl br wl wr K HL HR) as (il & ir & Y1 & Y2 & E).
  - left. exact I.
  - intros x [X|X]; apply M; [exact X|]. eapply Permutation_in; [apply Permutation_sym; exact P|exact X].
  - exists il, ir. split; [exact Y1|]. split; [exact Y2|]. rewrite E. rewrite (proj2 (diff_same key_dec _ _) P). reflexivity.
Qed.
Print Assumptions C51_equal_files.
(* a difference that is not reported: one more packet, whose key is not below any other. In
   particular a file without packets and one with a single packet compare equal. *)
Theorem C51_extra_packet_missed_refuted : forall csum bl br ws w, file_holds bl ws -> file_holds br (ws ++ [w]) ->
  (forall x, In x ws -> key_upto (wkey csum x) (wkey csum w)) ->
  exists il ir, yields pdec_next (pdec_new (reader_of bl)) il /\ yields pdec_next (pdec_new (reader_of br)) ir /\
    diff_cmd csum il ir = Val DiffOk /\
    diffs (map (wkey csum) ws) (map (wkey csum) (ws ++ [w])) = 1%nat.
Proof.
  intros csum bl br ws w HL HR M.
  assert (D : diffs (map (wkey csum) ws) (map (wkey csum) (ws ++ [w])) = 1%nat).
  { rewrite map_app. cbn [map]. induction (map (wkey csum) ws) as [|x l IH]; [reflexivity|]. cbn [app]. rewrite diff_cons_both. exact IH. }
  destruct (C51_exact_count csum bl br ws (ws ++ [w]) (wkey csum w) HL HR) as (il & ir & Y1 & Y2 & E).
  - right. rewrite map_app. apply in_or_app. right. left. reflexivity.
  - intros x X. assert (X' : In x (map (wkey csum) (ws ++ [w]))) by (destruct X as [X|X]; [rewrite map_app; apply in_or_app; left; exact X|exact X]).
    apply in_map_iff in X'. destruct X' as (y & <- & I). apply in_app_or in I. destruct I as [I|[<-|[]]]; [apply M; exact I|right; reflexivity].
  - exists il, ir. split; [exact Y1|]. split; [exact Y2|]. split; [|exact D]. rewrite E, D, map_app, count_occ_app. cbn [map count_occ].
    destruct (key_dec (wkey csum w) (wkey csum w)); [|contradiction]. destruct (Nat.eq_dec (times (wkey csum w) (map (wkey csum) ws)) (times (wkey csum w) (map (wkey csum) ws) + 1)); [lia|reflexivity].
Qed.
Print Assumptions C51_extra_packet_missed_refuted.
(* two or more differences are always reported *)
Theorem C51_detects : forall csum bl br wl wr, file_holds bl wl -> file_holds br wr ->
  (2 <= diffs (map (wkey csum) wl) (map (wkey csum) wr))%nat ->
  exists il ir n, yields pdec_next (pdec_new (reader_of bl)) il /\ yields pdec_next (pdec_new (reader_of br)) ir /\
    diff_cmd csum il ir = Val (DiffCount n) /\
    (N.of_nat (diffs (map (wkey csum) wl) (map (wkey csum) wr)) - 1 <= n <= N.of_nat (diffs (map (wkey csum) wl) (map (wkey csum) wr))).
Proof.
  intros csum bl br wl wr HL HR D. set (l := map (wkey csum) wl) in *. set (r := map (wkey csum) wr) in *.
  assert (MX : exists K, In K (l ++ r) /\ forall x, In x (l ++ r) -> key_upto x K).
  { assert (NE : l ++ r <> []) by (intro C; apply app_eq_nil in C; destruct C as [-> ->]; cbn in D; lia).
    destruct (l ++ r) as [|a q]; [contradiction|]. clear. revert a. induction q as [|b q IH]; intro a.
    - exists a. split; [left; reflexivity|]. intros x [->|[]]. right. reflexivity.
    - destruct (IH b) as (K & I & M). destruct (key_cmp_spec a K) as [->|L|L].
      + exists K. split; [left; reflexivity|]. intros x [->|X]; [right; reflexivity|apply M; exact X].
      + exists K. split; [right; exact I|]. intros x [->|X]; [left; exact L|apply M; exact X].
      + exists a. split; [left; reflexivity|]. intros x [->|X]; [right; reflexivity|]. left. eapply kle_lt; [apply M; exact X|exact L]. }
  destruct MX as (K & I & M). destruct (C51_exact_count csum bl br wl wr K HL HR) as (il & ir & Y1 & Y2 & E).
  - apply in_app_or. exact I.
  - intros x X. apply M, in_or_app. exact X.
  - fold l r in E. set (n := (diffs l r - (if Nat.eq_dec (times K l) (times K r) then 0 else 1))%nat) in *.
    assert (B : (diffs l r - 1 <= n <= diffs l r)%nat) by (unfold n; destruct (Nat.eq_dec _ _); lia).
    exists il, ir, (N.of_nat n). split; [exact Y1|]. split; [exact Y2|]. split; [rewrite E; destruct n; [lia|reflexivity]|]. lia.
Qed.
Print Assumptions C51_detects.

Definition sum8 (l : list N) : N := fold_left (fun a b => (a + b) mod 256) l 0.
Example C51_ex : exists il ir,
  yields pdec_next (pdec_new (reader_of (wire_bytes (fl_wire 7 1)))) il /\
  yields pdec_next (pdec_new (reader_of (wire_bytes (fl_wire 7 1) ++ wire_bytes (fl_wire 8 1)))) ir /\
  diff_cmd sum8 il ir = Val DiffOk.
Proof.
  assert (K : forall ws, Forall wire_ok ws -> Forall (fun w => N.of_nat (length (wire_bytes w)) <= 65536) ws -> file_holds (concat (map wire_bytes ws)) ws).
  { intros ws A B. split; [exact A|]. split; [exact B|]. exists []. rewrite app_nil_r. split; [reflexivity|]. split; [constructor|]. split; [apply incomplete_nil|cbn; lia]. }
  destruct (C51_extra_packet_missed_refuted sum8 (concat (map wire_bytes [fl_wire 7 1])) (concat (map wire_bytes [fl_wire 7 1; fl_wire 8 1])) [fl_wire 7 1] (fl_wire 8 1)) as (il & ir & A & B & C & _).
  - apply K; repeat constructor; vm_compute; discriminate.
  - apply K; repeat constructor; vm_compute; discriminate.
  - intros x [<-|[]]. left. left. reflexivity.
  - exists il, ir. split; [exact A|]. split; [exact B|exact C].
Qed.
(* extra packet in the middle: reported *)
Example C51_ex2 : diff_cmd sum8 (map Ok (packets_at 0 [fl_wire 7 1; fl_wire 9 1])) (map Ok (packets_at 0 [fl_wire 7 1; fl_wire 8 1; fl_wire 9 1])) = Val (DiffCount 1).
Proof. vm_compute. reflexivity. Qed.
