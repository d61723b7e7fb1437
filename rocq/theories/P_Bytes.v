(* Property C99: reading bytes and pushing them back *)
From Verif Require Import Base S_Bits S_Packet M_Reader M_Bytes M_Sync S_Sync S_Bytes L_Base L_Reader L_Sync.
Open Scope nat_scope.

Lemma read_exact_len : forall n r g s r', read_exact n r = (g, s, r') -> match s with None => length g = n | Some _ => length g < n end.
Proof.
  intros n [es f] g s r' H. unfold read_exact in H. cbn [evs fin] in H. destruct (read_exact_evs n es f) as [[g0 s0] e] eqn:E. injection H as -> -> _.
  apply read_exact_vtok, re_vtok_len in E. apply E.
Qed.
Lemma over_all : forall buf got, length got = length buf -> over buf got = got.
Proof. intros buf got H. unfold over. rewrite H, skipn_all. apply app_nil_r. Qed.
Lemma over_zero : forall n got, over (repeat 0%N n) got = padded n got.
Proof. intros. unfold over, padded. f_equal. revert got. induction n as [|n IH]; intros [|x got]; try reflexivity. cbn [repeat skipn length Nat.sub]. apply IH. Qed.

(* what the synchronizer uses *)
Theorem C99_zeroed : forall n b, bytes_fill n b = bytes_fill_into (repeat 0%N n) b.
Proof.
  intros n [r m c]. unfold bytes_fill, bytes_fill_into. cbn [b_cache b_reader b_num_read]. rewrite repeat_length. destruct c as [|x c].
  - destruct (read_exact n r) as [[g s] r'] eqn:E. apply read_exact_len in E. rewrite !over_zero. destruct s as [[| |k]|]; try reflexivity.
    unfold padded. rewrite E, Nat.sub_diag. cbn [repeat]. rewrite app_nil_r. reflexivity.
  - destruct (length (x :: c) <? n) eqn:L.
    + apply Nat.ltb_lt in L. destruct (read_exact (n - length (x :: c)) r) as [[g s] r'] eqn:E. apply read_exact_len in E. rewrite !over_zero.
      destruct s as [k|]; [reflexivity|]. unfold padded. rewrite app_length, E. replace (n - (length (x :: c) + (n - length (x :: c)))) with 0 by lia.
      cbn [repeat]. rewrite app_nil_r. reflexivity.
    + apply Nat.ltb_ge in L. rewrite over_zero. unfold padded. rewrite firstn_length, Nat.min_l by exact L. rewrite Nat.sub_diag. cbn [repeat]. rewrite app_nil_r. reflexivity.
Qed.
Print Assumptions C99_zeroed.

Lemma re_vtok_all : forall n bs, n <= length bs -> re_vtok n (map TByte bs) AtEof = (firstn n bs, None, map TByte (skipn n bs)).
Proof.
  induction n as [|n IH]; intros bs H; [reflexivity|]. destruct bs as [|x bs]; [cbn in H; lia|]. cbn [map re_vtok firstn skipn].
  cbn in H. rewrite IH by lia. reflexivity.
Qed.
Lemma re_vtok_short : forall n bs, length bs < n -> re_vtok n (map TByte bs) AtEof = (bs, Some UnexpectedEof, []).
Proof.
  induction n as [|n IH]; intros bs H; [lia|]. destruct bs as [|x bs]; [reflexivity|]. cbn [map re_vtok]. cbn in H. rewrite IH by lia. reflexivity.
Qed.
Lemma read_exact_delivers : forall n r rest, delivers r rest -> exists r', delivers r' (skipn n rest) /\
  read_exact n r = if n <=? length rest then (firstn n rest, None, r') else (rest, Some UnexpectedEof, r').
Proof.
  intros n [es f] rest [V F]. cbn [evs fin] in *. subst f. unfold read_exact. cbn [evs fin]. destruct (read_exact_evs n es AtEof) as [[g s] e] eqn:E.
  apply read_exact_vtok in E. rewrite V in E. exists (mkReader e AtEof). destruct (n <=? length rest) eqn:L.
  - apply Nat.leb_le in L. rewrite re_vtok_all in E by exact L. injection E as <- <- E. split; [split; [symmetry; exact E|reflexivity]|reflexivity].
  - apply Nat.leb_gt in L. rewrite re_vtok_short in E by exact L. injection E as <- <- E. rewrite skipn_all2 by lia. split; [split; [symmetry; exact E|reflexivity]|reflexivity].
Qed.
Lemma read1_delivers : forall r rest, delivers r rest -> exists r', delivers r' (tl rest) /\ read 1 r = (inl (firstn 1 rest), r').
Proof.
  intros r rest [V F]. destruct (read1_spec r) as (r' & F' & S1). rewrite V, F in S1. exists r'. destruct rest as [|x rest]; cbn [map] in S1; destruct S1 as [R V'].
  - split; [split; [exact V'|congruence]|exact R].
  - split; [split; [exact V'|congruence]|exact R].
Qed.

(* at position [pos] of bs with the bytes c pushed back *)
Record holds (bs : list N) (pos : nat) (c : list N) (b : bytes) : Prop := {
  h_cache : b_cache b = c; h_num : b_num_read b = pos + length c;
  h_rest : delivers (b_reader b) (skipn (pos + length c) bs); h_len : pos + length c <= length bs }.
Lemma skipn_tl : forall A (l : list A) n, tl (skipn n l) = skipn (n + 1) l.
Proof. intros A l n. rewrite Nat.add_1_r. revert l. induction n; intros [|x l]; try reflexivity. cbn [skipn]. apply IHn. Qed.
Lemma firstn1 : forall A (l : list A) n x, nth_error l n = Some x -> firstn 1 (skipn n l) = [x].
Proof. intros A l n x H. revert l H. induction n; intros [|y l] H; try discriminate; cbn in *; [congruence|]. apply IHn, H. Qed.
Lemma holds_next : forall bs pos b x, holds bs pos [] b -> nth_error bs pos = Some x ->
  exists b', do_call Next b = Val (TheByte x, b') /\ holds bs (pos + 1) [] b'.
Proof.
  intros bs pos [r m c] x [HC HN HR HL] E. cbn [b_cache b_reader b_num_read length] in *. subst c. rewrite Nat.add_0_r in *. subst m.
  destruct (read1_delivers _ _ HR) as (r' & HR' & R). rewrite (firstn1 _ _ _ _ E) in R. unfold do_call, bytes_next. cbn [b_cache b_reader b_num_read vec_pop rev]. rewrite R.
  eexists. split; [reflexivity|]. rewrite skipn_tl in HR'. assert (pos < length bs) by (apply nth_error_Some; congruence).
  constructor; cbn [b_cache b_reader b_num_read length]; try rewrite Nat.add_0_r; auto; lia.
Qed.
Lemma holds_next_last : forall bs pos c x b, holds bs pos (c ++ [x]) b -> exists b', do_call Next b = Val (TheByte x, b') /\ holds bs (pos + 1) c b'.
Proof.
  intros bs pos c x [r m c0] [HC HN HR HL]. cbn [b_cache b_reader b_num_read] in *. subst c0. unfold do_call, bytes_next. cbn [b_cache b_reader b_num_read]. rewrite vec_pop_snoc.
  eexists. split; [reflexivity|]. rewrite app_length in *. cbn [length] in *. replace (pos + (length c + 1)) with (pos + 1 + length c) in * by lia.
  constructor; cbn [b_cache b_reader b_num_read]; auto.
Qed.
Lemma holds_fill : forall bs pos c b buf, holds bs pos c b -> length c <= length buf -> c = firstn (length c) (skipn pos bs) -> pos + length buf <= length bs ->
  exists b', do_call (Fill buf) b = Val (Filled (firstn (length buf) (skipn pos bs)) true, b') /\ holds bs (pos + length buf) [] b'.
Proof.
  intros bs pos c [r m c0] buf [HC HN HR HL] L EC LB. cbn [b_cache b_reader b_num_read] in *. subst c0 m. set (n := length buf) in *.
  assert (D : forall r', delivers r' (skipn (n - length c) (skipn (pos + length c) bs)) -> delivers r' (skipn (pos + n) bs)).
  { intros r' H. rewrite skipn_skipn in H. replace (n - length c + (pos + length c)) with (pos + n) in H by lia. exact H. }
  assert (LS : length (skipn (pos + length c) bs) = length bs - (pos + length c)) by apply skipn_length.
  assert (FU : firstn n (skipn pos bs) = c ++ firstn (n - length c) (skipn (pos + length c) bs)).
  { rewrite EC at 1. rewrite <- (firstn_skipn (length c) (firstn n (skipn pos bs))). rewrite firstn_firstn, Nat.min_l by exact L. f_equal.
    rewrite skipn_firstn_comm, skipn_skipn, (Nat.add_comm (length c) pos). reflexivity. }
  destruct (read_exact_delivers (n - length c) r _ HR) as (r' & HR' & R). apply D in HR'. replace (n - length c <=? length (skipn (pos + length c) bs)) with true in R by (symmetry; apply Nat.leb_le; lia).
  assert (LF : length (firstn n (skipn pos bs)) = n) by (rewrite firstn_length, skipn_length; lia).
  unfold do_call, bytes_fill_into. cbn [b_cache b_reader b_num_read]. fold n. destruct c as [|x c].
  - cbn [length] in *. rewrite Nat.sub_0_r in R. rewrite R. cbn [app] in FU. rewrite Nat.sub_0_r in FU. rewrite <- FU. rewrite over_all by exact LF. eexists. split; [reflexivity|].
    constructor; cbn [b_cache b_reader b_num_read length]; rewrite ?Nat.add_0_r; auto; lia.
  - destruct (length (x :: c) <? n) eqn:LT.
    + apply Nat.ltb_lt in LT. rewrite R. rewrite <- FU. rewrite over_all by exact LF. eexists. split; [reflexivity|].
      constructor; cbn [b_cache b_reader b_num_read length]; rewrite ?Nat.add_0_r; auto; cbn [length] in *; lia.
    + apply Nat.ltb_ge in LT. assert (EN : n = length (x :: c)) by lia. rewrite (firstn_all2 (x :: c)) by lia. rewrite (skipn_all2 (x :: c)) by lia.
      rewrite over_all by (symmetry; exact EN). rewrite EN, Nat.sub_diag in FU. cbn [firstn] in FU. rewrite app_nil_r in FU. rewrite EN, FU.
      eexists. split; [reflexivity|]. constructor; cbn [b_cache b_reader b_num_read length]; rewrite ?Nat.add_0_r; cbn [length] in *; try lia; auto.
Qed.
Lemma holds_offset : forall bs pos c b, holds bs pos c b -> do_call Offset b = Val (IsAt pos, b).
Proof.
  intros bs pos c b [HC HN _ _]. unfold do_call, bytes_offset, usub. rewrite HC, HN. replace (length c <=? pos + length c) with true by (symmetry; apply Nat.leb_le; lia).
  cbn [obind]. rewrite Nat.add_sub. reflexivity.
Qed.
Lemma holds_start : forall r bs, delivers r bs -> holds bs 0 [] (bytes_new r).
Proof. intros r bs H. constructor; cbn; auto. lia. Qed.
Lemma calls_app : forall cs1 cs2 b l1 b1, do_calls cs1 b = Val (l1, b1) ->
  do_calls (cs1 ++ cs2) b = let* '(l2, b2) := do_calls cs2 b1 in Val (l1 ++ l2, b2).
Proof.
  induction cs1 as [|c cs1 IH]; intros cs2 b l1 b1 H; cbn [app do_calls] in *.
  - injection H as <- <-. destruct (do_calls cs2 b) as [[l b2]|]; reflexivity.
  - destruct (do_call c b) as [[a b']|]; cbn [obind] in *; [|discriminate]. destruct (do_calls cs1 b') as [[l b'']|] eqn:E; cbn [obind] in H; [|discriminate].
    injection H as <- <-. rewrite (IH cs2 _ _ _ E). destruct (do_calls cs2 b'') as [[l2 b2]|]; reflexivity.
Qed.
Lemma holds_sequence : forall bs pos cs l pos', in_sequence bs pos cs l pos' -> forall b, holds bs pos [] b ->
  exists b', do_calls cs b = Val (l, b') /\ holds bs pos' [] b'.
Proof.
  induction 1 as [pos|pos x cs l pos' E Q IH|pos buf cs l pos' LB Q IH|pos cs l pos' Q IH]; intros b HB; cbn [do_calls].
  - eauto.
  - destruct (holds_next _ _ _ _ HB E) as (b1 & R & H1). destruct (IH _ H1) as (b2 & R2 & H2). exists b2. rewrite R. cbn [obind]. rewrite R2. auto.
  - destruct (holds_fill _ _ _ _ buf HB (Nat.le_0_l _) eq_refl LB) as (b1 & R & H1). destruct (IH _ H1) as (b2 & R2 & H2). exists b2. rewrite R. cbn [obind]. rewrite R2. auto.
  - destruct (IH _ HB) as (b2 & R2 & H2). exists b2. rewrite (holds_offset _ _ _ _ HB). cbn [obind]. rewrite R2. auto.
Qed.
(* Without pushing back: the bytes of the stream in order, however the reader delivers them, and offset() is the position *)
Theorem C99_in_order : forall r bs cs l pos, delivers r bs -> in_sequence bs 0 cs l pos ->
  exists b, do_calls cs (bytes_new r) = Val (l, b).
Proof. intros r bs cs l pos D Q. destruct (holds_sequence _ _ _ _ _ Q _ (holds_start _ _ D)) as (b & R & _). eauto. Qed.
Print Assumptions C99_in_order.

Lemma nexts_sequence : forall bs k pos, pos + k <= length bs ->
  in_sequence bs pos (repeat Next k) (map TheByte (firstn k (skipn pos bs))) (pos + k).
Proof.
  induction k as [|k IH]; intros pos H; cbn [repeat firstn map]; [rewrite Nat.add_0_r; constructor|].
  destruct (nth_error bs pos) as [x|] eqn:E; [|apply nth_error_None in E; lia].
  assert (X : skipn pos bs = x :: skipn (pos + 1) bs).
  { clear -E. revert bs E. induction pos; intros [|y bs] E; try discriminate; cbn in *; [congruence|]. apply IHpos, E. }
  rewrite X. cbn [firstn map]. econstructor; [exact E|]. replace (pos + S k) with (pos + 1 + k) by lia. apply IH. lia.
Qed.
Lemma holds_push : forall bs pos b k dat, holds bs (pos + k) [] b -> length dat = k -> holds bs pos dat (bytes_push dat b).
Proof.
  intros bs pos [r m c] k dat [HC HN HR HL] E. cbn [b_cache b_reader b_num_read length] in *. subst c k. rewrite Nat.add_0_r in *. unfold bytes_push. cbn [b_cache b_reader b_num_read app].
  constructor; cbn [b_cache b_reader b_num_read]; auto.
Qed.
Lemma holds_nexts_rev : forall bs back pos b, holds bs pos (rev back) b -> exists b', do_calls (repeat Next (length back)) b = Val (map TheByte back, b') /\ holds bs (pos + length back) [] b'.
Proof.
  intros bs. induction back as [|x back IH]; intros pos b H; cbn [rev length repeat do_calls map] in *; [rewrite Nat.add_0_r; eauto|].
  destruct (holds_next_last _ _ _ _ _ H) as (b1 & R & H1). destruct (IH _ _ H1) as (b2 & R2 & H2). exists b2. rewrite R. cbn [obind]. rewrite R2. cbn [obind].
  split; [reflexivity|]. replace (pos + S (length back)) with (pos + 1 + length back) by lia. exact H2.
Qed.
Lemma len_back : forall A (bs : list A) pos k, pos + k <= length bs -> length (firstn k (skipn pos bs)) = k.
Proof. intros. rewrite firstn_length, skipn_length. lia. Qed.

(* A byte that is pushed back right after it was taken is as if it had never been taken, as long as there are enough bytes *)
Theorem C99_one_pushed_back : forall r bs cs1 l1 pos x cs2 l2 pos', delivers r bs ->
  in_sequence bs 0 cs1 l1 pos -> nth_error bs pos = Some x -> in_sequence bs pos cs2 l2 pos' ->
  exists b, do_calls (cs1 ++ [Next; Push [x]] ++ cs2) (bytes_new r) = Val (l1 ++ [TheByte x; Pushed] ++ l2, b).
Proof.
  intros r bs cs1 l1 pos x cs2 l2 pos' D Q1 E Q2. destruct (holds_sequence _ _ _ _ _ Q1 _ (holds_start _ _ D)) as (b1 & R1 & H1).
  rewrite (calls_app _ _ _ _ _ R1). cbn [app do_calls]. destruct (holds_next _ _ _ _ H1 E) as (b2 & R2 & H2). rewrite R2. cbn [obind do_call].
  assert (H3 := holds_push _ _ _ 1 [x] H2 eq_refl). set (b3 := bytes_push [x] b2) in *.
  assert (G : exists b, do_calls cs2 b3 = Val (l2, b)).
  { clearbody b3. clear -E Q2 H3. revert b3 H3. induction Q2 as [pos|pos y cs l pos' E' Q IH|pos buf cs l pos' LB Q IH|pos cs l pos' Q IH]; intros b H; cbn [do_calls].
    - eauto.
    - destruct (holds_next_last bs pos [] x b H) as (b' & R & H'). destruct (holds_sequence _ _ _ _ _ Q _ H') as (b2 & R2 & _). exists b2. rewrite R. cbn [obind].
      rewrite R2. cbn [obind]. congruence.
    - destruct buf as [|z buf].
      + assert (X : do_call (Fill []) b = Val (Filled [] true, b)).
        { destruct H as [HC _ _ _]. unfold do_call, bytes_fill_into. rewrite HC. destruct b as [r m c]. cbn [b_cache] in HC. subst c. reflexivity. }
        cbn [length] in Q, IH. rewrite Nat.add_0_r in Q, IH. destruct (IH E b H) as (b2 & R2). exists b2. rewrite X. cbn [obind firstn length]. rewrite R2. reflexivity.
      + destruct (holds_fill bs pos [x] b (z :: buf) H) as (b' & R & H'); [cbn; lia|symmetry; apply firstn1, E|exact LB|].
        destruct (holds_sequence _ _ _ _ _ Q _ H') as (b2 & R2 & _). exists b2. rewrite R. cbn [obind]. rewrite R2. reflexivity.
    - destruct (IH E b H) as (b2 & R2). exists b2. rewrite (holds_offset _ _ _ _ H). cbn [obind]. rewrite R2. reflexivity. }
  destruct G as (b & R). exists b. rewrite R. reflexivity.
Qed.
Print Assumptions C99_one_pushed_back.

(* Several bytes: pushed back in the order of the stream they are right for fill, if it asks for all of them ... *)
Theorem C99_pushed_back_fill : forall r bs cs1 l1 pos k buf cs2 l2 pos', delivers r bs ->
  in_sequence bs 0 cs1 l1 pos -> pos + k <= length bs -> k <= length buf -> in_sequence bs pos (Fill buf :: cs2) l2 pos' ->
  exists b, do_calls (cs1 ++ repeat Next k ++ [Push (firstn k (skipn pos bs))] ++ Fill buf :: cs2) (bytes_new r) =
    Val (l1 ++ map TheByte (firstn k (skipn pos bs)) ++ [Pushed] ++ l2, b).
Proof.
  intros r bs cs1 l1 pos k buf cs2 l2 pos' D Q1 LK LB Q2. destruct (holds_sequence _ _ _ _ _ Q1 _ (holds_start _ _ D)) as (b1 & R1 & H1).
  rewrite (calls_app _ _ _ _ _ R1). destruct (holds_sequence _ _ _ _ _ (nexts_sequence bs k pos LK) _ H1) as (b2 & R2 & H2). rewrite (calls_app _ _ _ _ _ R2).
  cbn [app do_calls do_call obind]. assert (LE := len_back _ bs pos k LK). assert (H3 := holds_push _ _ _ k _ H2 LE). inversion Q2 as [| |? ? ? l ? LB2 Q|]; subst.
  destruct (holds_fill _ _ _ _ buf H3) as (b3 & R3 & H4); [lia|rewrite LE; reflexivity|exact LB2|]. destruct (holds_sequence _ _ _ _ _ Q _ H4) as (b4 & R4 & _).
  exists b4. change (do_calls (Fill buf :: cs2) (bytes_push (firstn k (skipn pos bs)) b2)) with
    (let* '(a, b) := do_call (Fill buf) (bytes_push (firstn k (skipn pos bs)) b2) in let* '(l, b) := do_calls cs2 b in Val (a :: l, b)).
  cbn [do_call] in R3 |- *. rewrite R3. cbn [obind]. rewrite R4. reflexivity.
Qed.
Print Assumptions C99_pushed_back_fill.
(* ... and pushed back in the reverse order they are right for as many next *)
Theorem C99_pushed_back_next : forall r bs cs1 l1 pos k cs2 l2 pos', delivers r bs ->
  in_sequence bs 0 cs1 l1 pos -> pos + k <= length bs -> in_sequence bs pos (repeat Next k ++ cs2) l2 pos' ->
  exists b, do_calls (cs1 ++ repeat Next k ++ [Push (rev (firstn k (skipn pos bs)))] ++ repeat Next k ++ cs2) (bytes_new r) =
    Val (l1 ++ map TheByte (firstn k (skipn pos bs)) ++ [Pushed] ++ l2, b).
Proof.
  intros r bs cs1 l1 pos k cs2 l2 pos' D Q1 LK Q2. destruct (holds_sequence _ _ _ _ _ Q1 _ (holds_start _ _ D)) as (b1 & R1 & H1).
  rewrite (calls_app _ _ _ _ _ R1). destruct (holds_sequence _ _ _ _ _ (nexts_sequence bs k pos LK) _ H1) as (b2 & R2 & H2). rewrite (calls_app _ _ _ _ _ R2).
  cbn [app do_calls do_call obind]. assert (LE := len_back _ bs pos k LK). assert (H3 := holds_push _ pos _ k (rev (firstn k (skipn pos bs))) H2 ltac:(rewrite rev_length; exact LE)).
  destruct (holds_nexts_rev _ _ _ _ H3) as (b3 & R3 & H4). rewrite LE in R3, H4. rewrite (calls_app _ _ _ _ _ R3).
  assert (X : exists l3, l2 = map TheByte (firstn k (skipn pos bs)) ++ l3 /\ in_sequence bs (pos + k) cs2 l3 pos').
  { clear -Q2 LK. revert pos l2 Q2 LK. induction k as [|k IH]; intros pos l2 Q LK; cbn [repeat app] in Q; [exists l2; rewrite Nat.add_0_r; auto|].
    inversion Q as [|? x ? l ? E Q'| |]; subst. destruct (IH _ _ Q' ltac:(lia)) as (l3 & -> & Q3). exists l3. replace (pos + S k) with (pos + 1 + k) by lia. split; [|exact Q3].
    assert (X : skipn pos bs = x :: skipn (pos + 1) bs).
    { clear -E. revert bs E. induction pos; intros [|y bs] E; try discriminate; cbn in *; [congruence|]. apply IHpos, E. }
    rewrite X. reflexivity. }
  destruct X as (l3 & -> & Q3). destruct (holds_sequence _ _ _ _ _ Q3 _ H4) as (b4 & R4 & _). exists b4. rewrite R4. reflexivity.
Qed.
Print Assumptions C99_pushed_back_next.
(* So "the original order of the bytes is preserved when pushing bytes back" (bytes.rs:10-12) is false: *)
Theorem C99_order_refuted : forall r x y bs, delivers r (x :: y :: bs) ->
  (exists b, do_calls [Next; Next; Push [x; y]; Next; Next] (bytes_new r) = Val ([TheByte x; TheByte y; Pushed; TheByte y; TheByte x], b)) /\
  (exists b, do_calls [Next; Next; Push [y; x]; Fill [0; 0]%N] (bytes_new r) = Val ([TheByte x; TheByte y; Pushed; Filled [y; x] true], b)).
Proof.
  intros r x y bs D. assert (H0 := holds_start _ _ D). destruct (holds_next _ _ _ x H0 eq_refl) as (b1 & R1 & H1). destruct (holds_next _ _ _ y H1 eq_refl) as (b2 & R2 & H2).
  split; cbn [do_calls]; rewrite R1; cbn [obind]; rewrite R2; cbn [obind].
  - assert (H3 := holds_push _ 0 _ 2 [x; y] H2 eq_refl). cbn [do_call obind] . destruct (holds_next_last _ _ [x] y _ H3) as (b3 & R3 & H4). destruct (holds_next_last _ _ [] x _ H4) as (b4 & R4 & _).
    cbn [do_call] in R3, R4. rewrite R3. cbn [obind]. rewrite R4. cbn [obind]. eauto.
  - destruct H2 as [HC _ _ _]. destruct b2 as [r2 m2 c2]. cbn [b_cache] in HC. subst c2. eexists. reflexivity.
Qed.
Print Assumptions C99_order_refuted.

(* fill beyond the end of the stream. Nothing pushed back: Ok(false), the rest of the stream is in the buffer, whose other
   bytes are untouched, and offset() does not count it *)
Theorem C99_fill_at_end : forall r bs cs1 l1 pos buf, delivers r bs -> in_sequence bs 0 cs1 l1 pos -> length bs < pos + length buf ->
  exists b, do_calls (cs1 ++ [Fill buf; Next; Offset]) (bytes_new r) =
    Val (l1 ++ [Filled (skipn pos bs ++ skipn (length bs - pos) buf) false; NextFails UnexpectedEof; IsAt pos], b).
Proof.
  intros r bs cs1 l1 pos buf D Q1 L. destruct (holds_sequence _ _ _ _ _ Q1 _ (holds_start _ _ D)) as (b1 & R1 & H1). rewrite (calls_app _ _ _ _ _ R1). clear R1.
  destruct b1 as [r1 m c], H1 as [HC HN HR HL]. cbn [b_cache b_reader b_num_read length] in *. subst c. rewrite Nat.add_0_r in *. subst m.
  destruct (read_exact_delivers (length buf) _ _ HR) as (r2 & HR2 & R2). assert (LS := skipn_length pos bs).
  replace (length buf <=? length (skipn pos bs)) with false in R2 by (symmetry; apply Nat.leb_gt; lia).
  cbn [do_calls do_call]. unfold bytes_fill_into at 1. cbn [b_cache b_reader b_num_read]. rewrite R2. cbn [obind]. rewrite (skipn_all2 (skipn pos bs)) in HR2 by lia.
  destruct (read1_delivers _ _ HR2) as (r3 & HR3 & R3). cbn [firstn] in R3. unfold bytes_next at 1. cbn [b_cache b_reader b_num_read vec_pop rev]. rewrite R3. cbn [obind].
  unfold bytes_offset, usub. cbn [b_cache b_num_read length Nat.leb obind]. rewrite Nat.sub_0_r. unfold over. rewrite LS. eexists. reflexivity.
Qed.
Print Assumptions C99_fill_at_end.
(* Something pushed back: an error, and the rest of the stream behind the bytes pushed back is lost *)
Theorem C99_fill_loses : forall r bs cs1 l1 pos k buf, delivers r bs -> in_sequence bs 0 cs1 l1 pos -> 1 <= k -> pos + k <= length bs -> length bs < pos + length buf ->
  exists b, do_calls (cs1 ++ repeat Next k ++ [Push (rev (firstn k (skipn pos bs))); Fill buf] ++ repeat Next k ++ [Next]) (bytes_new r) =
    Val (l1 ++ map TheByte (firstn k (skipn pos bs)) ++
         [Pushed; FillFails (rev (firstn k (skipn pos bs)) ++ skipn (pos + k) bs ++ skipn (length bs - pos) buf) UnexpectedEof] ++
         map TheByte (firstn k (skipn pos bs)) ++ [NextFails UnexpectedEof], b).
Proof.
  intros r bs cs1 l1 pos k buf D Q1 K1 LK L. destruct (holds_sequence _ _ _ _ _ Q1 _ (holds_start _ _ D)) as (b1 & R1 & H1).
  rewrite (calls_app _ _ _ _ _ R1). destruct (holds_sequence _ _ _ _ _ (nexts_sequence bs k pos LK) _ H1) as (b2 & R2 & H2). rewrite (calls_app _ _ _ _ _ R2). clear R1 R2 H1.
  set (back := firstn k (skipn pos bs)) in *. assert (LE : length back = k) by (apply len_back; exact LK).
  assert (H3 := holds_push _ pos _ k (rev back) H2 ltac:(rewrite rev_length; exact LE)). set (b3 := bytes_push (rev back) b2) in *.
  cbn [app do_calls do_call]. cbn [obind]. fold b3. destruct b3 as [r3 m c]. destruct H3 as [HC HN HR HL]. cbn [b_cache b_reader b_num_read] in *. subst c m. rewrite rev_length, LE in *.
  destruct (read_exact_delivers (length buf - k) _ _ HR) as (r4 & HR4 & R4). assert (LS := skipn_length (pos + k) bs).
  replace (length buf - k <=? length (skipn (pos + k) bs)) with false in R4 by (symmetry; apply Nat.leb_gt; lia).
  assert (NE : rev back <> []) by (intro X; apply (f_equal (@length N)) in X; rewrite rev_length in X; cbn in X; lia).
  unfold bytes_fill_into at 1. cbn [b_cache b_reader b_num_read]. destruct (rev back) as [|z rb] eqn:RB; [congruence|]. rewrite <- RB in *. rewrite rev_length, LE.
  replace (k <? length buf) with true by (symmetry; apply Nat.ltb_lt; lia). rewrite R4. cbn [obind]. rewrite (skipn_all2 (skipn (pos + k) bs)) in HR4 by lia.
  clear RB. assert (H5 : exists b, do_calls (repeat Next k) (mkBytes r4 (pos + k) (rev back)) = Val (map TheByte back, b) /\ b_cache b = [] /\ b_reader b = r4).
  { clearbody back. clear -LE. subst k. generalize (pos + length back) as m. clear pos. induction back as [|x back IH]; intros m; cbn [length repeat do_calls rev map]; [eexists; repeat split; reflexivity|].
    cbn [do_call]. unfold bytes_next at 1. cbn [b_cache b_reader b_num_read]. rewrite vec_pop_snoc. cbn [obind]. destruct (IH m) as (b & R & C). exists b. rewrite R. split; [reflexivity|exact C]. }
  destruct H5 as ([r5 m5 c5] & R5 & C5 & E5). cbn [b_cache b_reader] in *. subst r5 c5. rewrite (calls_app _ _ _ _ _ R5).
  destruct (read1_delivers _ _ HR4) as (r6 & HR6 & R6). cbn [firstn] in R6. cbn [do_calls do_call]. unfold bytes_next at 1. cbn [b_cache b_reader b_num_read vec_pop rev]. rewrite R6. cbn [obind].
  eexists. f_equal. f_equal. f_equal. f_equal. cbn [app]. f_equal. f_equal. f_equal. unfold over. rewrite <- app_assoc. f_equal. f_equal. rewrite app_length, rev_length, LE, LS. f_equal. lia.
Qed.
Print Assumptions C99_fill_loses.

(* offset(), on every reader and after every history: the bytes handed over less those given back; it underflows exactly
   if more were given back than handed over *)
Lemma handed_call : forall c b a b', do_call c b = Val (a, b') ->
  (b_num_read b' + length (b_cache b) + given c = b_num_read b + length (b_cache b') + handed a)%nat.
Proof.
  intros c [r m v] a b' H. cbn [b_num_read b_cache]. destruct c as [|buf|dat|]; cbn [do_call] in H.
  - unfold bytes_next in H. cbn [b_cache b_reader b_num_read] in H. destruct (cache_cases _ v) as [->|(v' & y & ->)].
    + cbn [vec_pop rev] in H. destruct (read 1 r) as [[[|z l]|k] r']; injection H as <- <-; cbn [b_num_read b_cache length given handed]; lia.
    + rewrite vec_pop_snoc in H. injection H as <- <-. cbn [b_num_read b_cache given handed]. rewrite app_length. cbn [length]. lia.
  - unfold bytes_fill_into in H. cbn [b_cache b_reader b_num_read] in H. destruct v as [|x v].
    + destruct (read_exact (length buf) r) as [[g s] r'] eqn:E. apply read_exact_len in E.
      destruct s as [[| |k]|]; injection H as <- <-; cbn [b_num_read b_cache length given handed]; try lia. rewrite over_all by exact E. lia.
    + destruct (length (x :: v) <? length buf) eqn:L.
      * apply Nat.ltb_lt in L. destruct (read_exact (length buf - length (x :: v)) r) as [[g s] r'] eqn:E. apply read_exact_len in E.
        destruct s as [k|]; injection H as <- <-; cbn [b_num_read b_cache given handed]; [lia|]. rewrite over_all by (cbn [length app] in *; rewrite app_length; lia). cbn [length app] in *. rewrite app_length. lia.
      * apply Nat.ltb_ge in L. injection H as <- <-. cbn [b_num_read b_cache given handed]. rewrite over_all by (rewrite firstn_length; lia). rewrite firstn_length, skipn_length. lia.
  - injection H as <- <-. cbn [b_num_read b_cache bytes_push given handed]. rewrite app_length. lia.
  - destruct (bytes_offset (mkBytes r m v)); cbn [obind] in H; [|discriminate]. injection H as <- <-. cbn [b_num_read b_cache given handed]. lia.
Qed.
Theorem C99_offset : forall r cs l b, do_calls cs (bytes_new r) = Val (l, b) ->
  do_call Offset b = if total given cs <=? total handed l then Val (IsAt (total handed l - total given cs), b) else Panic.
Proof.
  assert (G : forall cs b0 l b, do_calls cs b0 = Val (l, b) -> b_num_read b + length (b_cache b0) + total given cs = b_num_read b0 + length (b_cache b) + total handed l).
  { unfold total. induction cs as [|c cs IH]; intros b0 l b H; cbn [do_calls] in H; [injection H as <- <-; cbn; lia|].
    destruct (do_call c b0) as [[a b1]|] eqn:E; cbn [obind] in H; [|discriminate]. destruct (do_calls cs b1) as [[l1 b2]|] eqn:E2; cbn [obind] in H; [|discriminate]. injection H as <- <-.
    apply handed_call in E. apply IH in E2. cbn [map fold_right]. lia. }
  intros r cs l b H. apply G in H. cbn [bytes_new b_num_read b_cache length] in H. unfold do_call, bytes_offset, usub.
  destruct (length (b_cache b) <=? b_num_read b) eqn:A; destruct (total given cs <=? total handed l) eqn:B; cbn [obind]; try reflexivity.
  - apply Nat.leb_le in A, B. f_equal. f_equal. f_equal. lia.
  - apply Nat.leb_le in A. apply Nat.leb_gt in B. lia.
  - apply Nat.leb_gt in A. apply Nat.leb_le in B. lia.
Qed.
Print Assumptions C99_offset.
(* and no other call panics *)
Theorem C99_no_panic : forall cs b, ~ In Offset cs -> exists l b', do_calls cs b = Val (l, b').
Proof.
  induction cs as [|c cs IH]; intros b H; cbn [do_calls]; [eauto|]. destruct c as [|buf|dat|]; [| | |destruct H; left; reflexivity]; cbn [do_call].
  - destruct (bytes_next b) as [x b1]. cbn [obind]. destruct (IH b1) as (l & b' & ->); [intro I; apply H; right; exact I|]. cbn [obind]. eauto.
  - destruct (bytes_fill_into buf b) as [[bu x] b1]. cbn [obind]. destruct (IH b1) as (l & b' & ->); [intro I; apply H; right; exact I|]. cbn [obind]. eauto.
  - cbn [obind]. destruct (IH (bytes_push dat b)) as (l & b' & ->); [intro I; apply H; right; exact I|]. cbn [obind]. eauto.
Qed.
Print Assumptions C99_no_panic.

Example C99_ex : delivers (mkReader [EvData [1; 2]; EvData [3; 4; 5]]%N AtEof) [1; 2; 3; 4; 5]%N /\
  in_sequence [1; 2; 3; 4; 5]%N 0 [Next; Offset; Fill [9; 9; 9]%N] [TheByte 1; IsAt 1; Filled [2; 3; 4]%N true] 4 /\
  exists b, do_calls [Next; Next; Push [1; 2]; Fill [7; 7; 7; 7]; Fill [7; 8; 9]; Offset]%N (bytes_new (mkReader [EvData [1; 2]; EvData [3; 4; 5]]%N AtEof)) =
    Val ([TheByte 1; TheByte 2; Pushed; Filled [1; 2; 3; 4] true; Filled [5; 8; 9] false; IsAt 4]%N, b).
Proof.
  split; [split; reflexivity|]. split; [|eexists; reflexivity].
  apply seq_next; [reflexivity|]. apply seq_offset. change [2; 3; 4]%N with (firstn (length [9; 9; 9]%N) (skipn 1 [1; 2; 3; 4; 5]%N)).
  apply (seq_fill _ 1); [cbn; lia|]. apply seq_done.
Qed.
