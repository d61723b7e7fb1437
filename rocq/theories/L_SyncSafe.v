(* Synchronization over every reader: chunking, errors, end of file in the middle of the stream *)
From Verif Require Import Base S_Bits M_Reader M_Bytes M_Sync S_Packet S_Sync L_Base L_Bits L_Timecode L_Reader L_Sync L_SyncBits L_SyncRun L_SyncIter.
Open Scope nat_scope.

(* ---- two readers delivering the same tokens ---- *)
Definition same_reader (r r' : reader) : Prop := vtranscript (evs r) = vtranscript (evs r') /\ fin r = fin r'.
Definition same (b b' : bytes) : Prop :=
  b_cache b = b_cache b' /\ b_num_read b = b_num_read b' /\ same_reader (b_reader b) (b_reader b').
Definition same_sy (s s' : syncer) : Prop :=
  sy_patterns s = sy_patterns s' /\ sy_masks s = sy_masks s' /\ sy_block_size s = sy_block_size s' /\
  sy_idx s = sy_idx s' /\ same (sy_bytes s) (sy_bytes s').
Definition rel_out {A B} (R : A -> B -> Prop) (x : outcome A) (y : outcome B) : Prop :=
  match x, y with Val a, Val b => R a b | Panic, Panic => True | _, _ => False end.
Lemma rel_bind : forall A A' B B' (R : A -> A' -> Prop) (Q : B -> B' -> Prop) x x' f f',
  rel_out R x x' -> (forall a a', R a a' -> rel_out Q (f a) (f' a')) -> rel_out Q (obind x f) (obind x' f').
Proof. intros. destruct x, x'; cbn in *; try contradiction; auto. Qed.
Lemma rel_eq : forall A (x : outcome A), rel_out eq x x.
Proof. intros A [a|]; cbn; auto. Qed.

Lemma same_next : forall b b', same b b' ->
  fst (bytes_next b) = fst (bytes_next b') /\ same (snd (bytes_next b)) (snd (bytes_next b')).
Proof.
  intros [r n c] [r' n' c'] (C & N & V & F). cbn [b_cache b_num_read b_reader] in *. subst c' n'.
  unfold bytes_next. cbn [b_cache b_num_read b_reader]. destruct (vec_pop c) as [[x c2]|].
  - cbn. repeat split; assumption.
  - destruct (read1_spec r) as (r1 & F1 & S1). destruct (read1_spec r') as (r2 & F2 & S2).
    rewrite <- V, <- F in S2.
    destruct (vtranscript (evs r)) as [|[x|k|] ts]; destruct S1 as [R1 V1], S2 as [R2 V2]; rewrite R1, R2.
    + destruct (fin r) eqn:FE; cbn; repeat split; cbn; congruence.
    + cbn; repeat split; cbn; congruence.
    + cbn; repeat split; cbn; congruence.
    + cbn; repeat split; cbn; congruence.
Qed.
Lemma same_push : forall w b b', same b b' -> same (bytes_push w b) (bytes_push w b').
Proof. intros w b b' (C & N & V). unfold same, bytes_push. cbn. rewrite C. repeat split; try assumption; apply V. Qed.

Lemma same_read_exact : forall n r r', same_reader r r' ->
  fst (read_exact n r) = fst (read_exact n r') /\ same_reader (snd (read_exact n r)) (snd (read_exact n r')).
Proof.
  intros n r r' [V F]. unfold read_exact.
  destruct (read_exact_evs n (evs r) (fin r)) as [[g s] e] eqn:E1.
  destruct (read_exact_evs n (evs r') (fin r')) as [[g' s'] e'] eqn:E2.
  apply read_exact_vtok in E1, E2. rewrite V, F, E2 in E1. injection E1 as -> -> E1. cbn [fst snd]. split; [reflexivity|]. split; [symmetry; exact E1|exact F].
Qed.
Lemma same_fill : forall n b b', same b b' ->
  fst (bytes_fill n b) = fst (bytes_fill n b') /\ same (snd (bytes_fill n b)) (snd (bytes_fill n b')).
Proof.
  intros n [r m c] [r' m' c'] (C & N & V). cbn [b_cache b_num_read b_reader] in *. subst c' m'.
  unfold bytes_fill. cbn [b_cache b_num_read b_reader]. destruct c as [|x c].
  - destruct (same_read_exact n r r' V) as [A B].
    destruct (read_exact n r) as [[g s] r1], (read_exact n r') as [[g' s'] r2]. cbn in A, B. injection A as -> ->.
    destruct s' as [[| |code]|]; cbn; repeat split; apply B.
  - destruct (length (x :: c) <? n).
    + destruct (same_read_exact (n - length (x :: c)) r r' V) as [A B].
      destruct (read_exact (n - length (x :: c)) r) as [[g s] r1], (read_exact (n - length (x :: c)) r') as [[g' s'] r2].
      cbn in A, B. injection A as -> ->. destruct s' as [k|]; cbn; repeat split; apply B.
    + cbn. repeat split; apply V.
Qed.

Definition same_try (t t' : try_result) : Prop :=
  match t, t' with
  | TMatch b bs, TMatch b' bs' => b = b' /\ same bs bs'
  | TFail w bs, TFail w' bs' => w = w' /\ same bs bs'
  | TReadErr k bs, TReadErr k' bs' => k = k' /\ same bs bs'
  | _, _ => False
  end.
Lemma same_try_pattern : forall pat mask w b bs bs', same bs bs' ->
  rel_out same_try (try_pattern pat mask w b bs) (try_pattern pat mask w b bs').
Proof.
  induction pat as [|p pat IH]; intros mask w b bs bs' H; cbn [try_pattern].
  - cbn. auto.
  - destruct (same_next _ _ H) as [A B]. destruct (bytes_next bs) as [x b1], (bytes_next bs') as [x' b2].
    cbn in A, B. subst x'. destruct x as [x|k].
    + destruct mask as [|m mask]; [exact I|]. destruct (negb (N.land x m =? p)%N); [cbn; auto|]. apply IH. exact B.
    + cbn. auto.
Qed.

Definition same_scan (x y : scan_res * syncer) : Prop := fst x = fst y /\ same_sy (snd x) (snd y).
Lemma same_set : forall s s' b b' i, same_sy s s' -> same b b' -> same_sy (sy_set s b i) (sy_set s' b' i).
Proof. intros s s' b b' i (P & M & L & I & _) H. unfold same_sy, sy_set. cbn. auto. Qed.
Lemma same_offset : forall b b', same b b' -> bytes_offset b = bytes_offset b'.
Proof. intros b b' (C & N & _). unfold bytes_offset. congruence. Qed.

Lemma same_scan_loop : forall fuel s s' b, same_sy s s' ->
  rel_out same_scan (scan_loop fuel s b) (scan_loop fuel s' b).
Proof.
  induction fuel; intros s s' b H; cbn [scan_loop].
  - cbn. split; [reflexivity|exact H].
  - assert (H0 := H). destruct H0 as (P & M & L & I & B). rewrite P, M, I.
    apply rel_bind with (R := eq); [apply rel_eq|]. intros pat ? <-.
    apply rel_bind with (R := eq); [apply rel_eq|]. intros mask ? <-.
    apply rel_bind with (R := same_try); [apply same_try_pattern; exact B|].
    intros [b1 bs|w bs|k bs] [b2 bs'|w' bs'|k' bs'] T; cbn in T; try contradiction; destruct T as [<- T].
    + apply rel_bind with (R := eq); [rewrite (same_offset _ _ T); apply rel_eq|]. intros off ? <-.
      split; [reflexivity|]. apply same_set; [exact H|].
      destruct (0 <? sy_idx s'); [apply same_push|]; exact T.
    + destruct (sy_idx s' + 1 =? 8); apply IHfuel; apply same_set; try exact H; apply same_push; exact T.
    + destruct k; (split; [reflexivity|]; apply same_set; [exact H|exact T]).
Qed.

Fixpoint nb (ts : list token) : nat := match ts with [] => 0 | TByte _ :: ts => S (nb ts) | _ :: ts => nb ts end.
Lemma nb_app : forall a b, nb (a ++ b) = nb a + nb b.
Proof. induction a as [|[x|k|] a IH]; intros; cbn; rewrite ?IH; reflexivity. Qed.
Lemma nb_bytes : forall l, nb (map TByte l) = length l.
Proof. induction l; cbn; congruence. Qed.
Lemma nb_length : forall ts, nb ts <= length ts.
Proof. induction ts as [|[x|k|] ts IH]; cbn; lia. Qed.
Lemma evs_len_nb : forall es, evs_len es = nb (vtranscript es).
Proof.
  induction es as [|e es IH]; [reflexivity|].
  change (evs_len (e :: es)) with (ev_len e + evs_len es).
  change (vtranscript (e :: es)) with (vtokens_of_event e ++ vtranscript es). rewrite nb_app, IH. f_equal.
  destruct e as [[|b d]|k]; try reflexivity. cbn [ev_len vtokens_of_event]. symmetry. apply nb_bytes.
Qed.

Lemma same_scan_top : forall s s', same_sy s s' -> rel_out same_scan (scan s) (scan s').
Proof.
  intros s s' H. unfold scan. replace (scan_fuel s') with (scan_fuel s); [apply same_scan_loop; exact H|].
  destruct H as (_ & _ & _ & _ & C & _ & V & _). unfold scan_fuel. rewrite !evs_len_nb, C, V. reflexivity.
Qed.

Definition same_blk (x y : result (list N) * syncer) : Prop := fst x = fst y /\ same_sy (snd x) (snd y).
Lemma same_sync_block : forall s s', same_sy s s' -> rel_out same_blk (sync_block s) (sync_block s').
Proof.
  intros s s' H. assert (H0 := H). destruct H0 as (P & M & L & I & B). unfold sync_block. rewrite L, I.
  destruct (same_fill (sy_block_size s' + (if negb (sy_idx s' =? 0) then 1 else 0)) _ _ B) as [A B'].
  destruct (bytes_fill _ (sy_bytes s)) as [[buf res] b1], (bytes_fill _ (sy_bytes s')) as [[buf' res'] b2].
  cbn in A, B'. injection A as -> ->. destruct res' as [ok|k].
  - apply rel_bind with (R := same).
    { destruct (negb (sy_idx s' =? 0)); [|exact B']. apply rel_bind with (R := eq); [apply rel_eq|].
      intros x ? <-. apply same_push. exact B'. }
    intros b3 b4 B3. apply rel_bind with (R := eq); [apply rel_eq|]. intros sh ? <-.
    apply rel_bind with (R := eq); [apply rel_eq|]. intros out ? <-. split; [reflexivity|].
    apply same_set; assumption.
  - split; [reflexivity|]. apply same_set; assumption.
Qed.

Definition same_bi (x y : biter) : Prop := bi_last x = bi_last y /\ same_sy (bi_sync x) (bi_sync y).
Definition same_item (x y : option (result block) * biter) : Prop := fst x = fst y /\ same_bi (snd x) (snd y).
Lemma same_bi_next : forall x y, same_bi x y -> rel_out same_item (biter_next x) (biter_next y).
Proof.
  intros x y [L H]. unfold biter_next. apply rel_bind with (R := same_scan); [apply same_scan_top; exact H|].
  intros [r s] [r' s'] [E S1]. cbn in E, S1. subst r'. destruct r as [l| |k|].
  - rewrite L. apply rel_bind with (R := eq); [apply rel_eq|]. intros last ? <-.
    apply rel_bind with (R := same_blk); [apply same_sync_block; exact S1|].
    intros [br s2] [br' s2'] [E2 S2]. cbn in E2, S2. subst br'.
    destruct br; (split; [reflexivity|]; split; [reflexivity|exact S2]).
  - split; [reflexivity|]. split; [exact L|exact S1].
  - split; [reflexivity|]. split; [exact L|exact S1].
  - exact I.
Qed.
Lemma same_yields : forall x items, yields biter_next x items -> forall y, same_bi x y -> yields biter_next y items.
Proof.
  induction 1 as [s s' E|s s' a items E Y IH]; intros y H; assert (R := same_bi_next _ _ H); rewrite E in R;
    destruct (biter_next y) as [[o y']|] eqn:EY; cbn in R; try contradiction; destruct R as [R1 R2]; cbn in R1, R2; subst o.
  - eapply yields_nil; exact EY.
  - eapply yields_cons; [exact EY|]. apply IH. exact R2.
Qed.
Lemma same_start : forall r r' asm len, same_reader r r' -> same_bi (synchronize r asm len) (synchronize r' asm len).
Proof.
  intros r r' asm len H. split; [reflexivity|]. unfold synchronize, syncer_new. cbn [bi_sync].
  destruct (create_patterns asm). repeat split; try reflexivity; apply H.
Qed.

(* ---- every reader: no panic, and at most finitely many items when the reader ends ---- *)
Record inv (asm : list N) (len : nat) (s : syncer) : Prop := {
  i_pat : sy_patterns s = fst (create_patterns asm);
  i_mask : sy_masks s = snd (create_patterns asm);
  i_len : sy_block_size s = len;
  i_idx : sy_idx s < 8;
  i_num : cl (sy_bytes s) <= b_num_read (sy_bytes s);
  i_cl : cl (sy_bytes s) <= plen asm (sy_idx s) }.
Definition consumed (s : syncer) : nat := b_num_read (sy_bytes s) - cl (sy_bytes s).
Definition vl (s : syncer) : nat := length (view (sy_bytes s)).
Definition bitsleft (s : syncer) : nat := 8 * nb (view (sy_bytes s)) - sy_idx s.
Definition fins (s : syncer) : final := fin (b_reader (sy_bytes s)).

Lemma head_kind_nil : forall f, head_kind [] f = final_kind f. Proof. reflexivity. Qed.

Section Safe.
Variables (asm : list N) (len : nat).
Hypothesis Hne : asm <> [].
Let n_pos : 1 <= length asm. Proof. destruct asm; [congruence|cbn; lia]. Qed.

Lemma scan_safe : forall fuel s b, inv asm len s -> bitsleft s < fuel ->
  exists res s', scan_loop fuel s b = Val (res, s') /\ inv asm len s' /\ consumed s <= consumed s' /\
   fins s' = fins s /\
   match res with
   | SOutOfFuel => False
   | SFound l => l_offset l = consumed s' + 1 /\ 8 * vl s' - sy_idx s' < 8 * vl s - sy_idx s
        /\ vl s' <= vl s
        /\ cl (sy_bytes s') = (if sy_idx s' =? 0 then 0 else 1)
   | SNone => True
   | SErr k => vl s' < vl s \/ exists c, fins s = Failing c
   end.
Proof.
  induction fuel as [|fuel IH]; intros s b G HF; [lia|].
  destruct G as [Gp Gm Gl Gi Gn Gc]. remember (sy_idx s) as i eqn:Ei.
  destruct (lead_split (view (sy_bytes s))) as [V NB]. set (rem := lead (view (sy_bytes s))) in *. set (ts := after_lead (view (sy_bytes s))) in *.
  clearbody rem ts.
  assert (LM : length (mask_i asm i) = length (pat_i asm i)) by (rewrite mask_length, pat_length by assumption; reflexivity).
  assert (LV : length (view (sy_bytes s)) = length rem + length ts) by (rewrite V, app_length, map_length; reflexivity).
  assert (NV : nb (view (sy_bytes s)) = length rem + nb ts) by (rewrite V, nb_app, nb_bytes; reflexivity).
  unfold bitsleft in HF. rewrite NV in HF.
  cbn [scan_loop]. rewrite Gp, Gm, <- Ei, get_pat, get_mask by assumption. cbn [obind].
  assert (T := try_spec (pat_i asm i) (mask_i asm i) [] b (sy_bytes s) rem ts LM V NB).
  destruct (cmp (pat_i asm i) (mask_i asm i) rem) as [|j|] eqn:C.
  - destruct T as (b1 & E & V1 & (A1 & A2 & A3)). rewrite E. cbn [obind].
    assert (LC := cmp_match_len _ _ _ LM C). rewrite pat_length in * by assumption.
    assert (C0 : cl b1 = 0) by lia.
    assert (L1 : length (view b1) = length rem - plen asm i + length ts) by (rewrite V1, app_length, map_length, skipn_length; reflexivity).
    assert (PP : 1 <= plen asm i) by (unfold plen; lia).
    unfold bytes_offset. fold (cl b1). rewrite usub_ok by lia. rewrite C0, Nat.sub_0_r. cbn [obind].
    destruct (Nat.eq_dec i 0) as [I0|I0].
    + rewrite I0 in *. change ((8 - N.of_nat 0) mod 8 =? 0)%N with true. cbv iota. change (0 <? 0) with false. cbv iota.
      eexists; eexists. split; [reflexivity|].
      unfold consumed, vl, fins. cbn [sy_set sy_bytes sy_idx l_offset]. split.
      { split; cbn [sy_set sy_patterns sy_masks sy_block_size sy_idx sy_bytes]; try assumption; try lia. }
      split; [lia|]. split; [exact A3|]. split; [lia|]. rewrite <- ?Ei. split; [lia|]. split; [lia|]. exact C0.
    + replace ((8 - N.of_nat i) mod 8 =? 0)%N with false.
      2:{ symmetry. apply N.eqb_neq. rewrite N.mod_small by lia. lia. }
      replace (0 <? i) with true by (symmetry; apply Nat.ltb_lt; lia).
      assert (PL : plen asm i = S (length asm)) by (unfold plen; destruct (Nat.eqb_spec i 0); lia).
      eexists; eexists. split; [reflexivity|].
      set (w := [last (firstn (plen asm i) rem) b]).
      assert (LW : length (view (bytes_push w b1)) = S (length (view b1))).
      { change w with (rev w). rewrite view_push, app_length, map_length. reflexivity. }
      assert (CW : cl (bytes_push w b1) = 1) by (rewrite cl_push, C0; reflexivity).
      unfold consumed, vl, fins. cbn [sy_set sy_bytes sy_idx l_offset]. rewrite LW, CW, L1. cbn [bytes_push b_num_read b_reader].
      split.
      { split; cbn [sy_set sy_patterns sy_masks sy_block_size sy_idx sy_bytes]; rewrite ?CW; cbn [bytes_push b_num_read]; try assumption; try lia. }
      split; [lia|]. split; [exact A3|]. split; [lia|]. rewrite <- ?Ei. split; [lia|]. split; [lia|].
      destruct (Nat.eqb_spec i 0); [contradiction|reflexivity].
  - destruct T as (b1 & E & V1 & (A1 & A2 & A3)). rewrite E. cbn [obind app].
    assert (JB := cmp_fail_bound _ _ _ _ C). rewrite pat_length in JB by assumption.
    assert (LF : length (firstn j rem) = j) by (rewrite firstn_length; lia).
    assert (K : forall s', inv asm len s' -> consumed s <= consumed s' -> fins s' = fins s -> bitsleft s' < bitsleft s ->
        8 * vl s' - sy_idx s' < 8 * vl s - i -> vl s' <= vl s ->
      exists res s'', scan_loop fuel s' (last (firstn j rem) 0%N) = Val (res, s'') /\ inv asm len s'' /\ consumed s <= consumed s'' /\
   fins s'' = fins s /\
   match res with
   | SOutOfFuel => False
   | SFound l => l_offset l = consumed s'' + 1 /\ 8 * vl s'' - sy_idx s'' < 8 * vl s - i
        /\ vl s'' <= vl s
        /\ cl (sy_bytes s'') = (if sy_idx s'' =? 0 then 0 else 1)
   | SNone => True
   | SErr k => vl s'' < vl s \/ exists c, fins s = Failing c
   end).
    { intros s' G' Hc Hf Hb Hm Hv. assert (bitsleft s = 8 * (length rem + nb ts) - i) by (unfold bitsleft; rewrite NV, <- Ei; reflexivity).
      destruct (IH s' (last (firstn j rem) 0%N) G' ltac:(lia)) as (res & s'' & E' & G'' & Hc' & Hf' & R).
      exists res, s''. split; [exact E'|]. split; [exact G''|]. split; [lia|]. split; [congruence|].
      destruct res as [l| |k|]; try exact R.
      - destruct R as (R1 & R2 & R3 & R4). repeat split; try assumption; lia.
      - destruct R as [R|[c R]]; [left; lia|right; exists c; congruence]. }
    destruct (Nat.eq_dec i 7) as [I7|I7].
    + replace (i + 1 =? 8) with true by (rewrite I7; reflexivity).
      destruct rem as [|x rem']; [cbn in JB; lia|]. destruct j as [|j]; [lia|]. cbn [firstn length] in *.
      assert (VP : view (bytes_push (removelast (rev (x :: firstn j rem'))) b1) = map TByte rem' ++ ts).
      { cbn [rev]. rewrite removelast_last, view_push, V1. cbn [skipn]. rewrite app_assoc, <- map_app, firstn_skipn. reflexivity. }
      assert (CP : cl (bytes_push (removelast (rev (x :: firstn j rem'))) b1) = cl b1 + j).
      { cbn [rev]. rewrite removelast_last, cl_push, rev_length. lia. }
      assert (plen asm i = S (plen asm 0)) by (rewrite I7; unfold plen; cbn; lia).
      apply K; unfold consumed, vl, fins, bitsleft; cbn [sy_set sy_bytes sy_idx]; rewrite ?VP, ?CP, ?LV, ?NV, <- ?Ei; cbn [bytes_push b_num_read b_reader length].
      * split; cbn [sy_set sy_patterns sy_masks sy_block_size sy_idx sy_bytes]; rewrite ?CP; cbn [bytes_push b_num_read]; try assumption; try lia.
      * lia.
      * exact A3.
      * rewrite nb_app, nb_bytes. lia.
      * rewrite app_length, map_length. lia.
      * rewrite app_length, map_length. lia.
    + replace (i + 1 =? 8) with false by (symmetry; apply Nat.eqb_neq; lia).
      assert (VP : view (bytes_push (rev (firstn j rem)) b1) = map TByte rem ++ ts).
      { rewrite view_push, V1, app_assoc, <- map_app, firstn_skipn. reflexivity. }
      assert (CP : cl (bytes_push (rev (firstn j rem)) b1) = cl b1 + j) by (rewrite cl_push, rev_length; lia).
      assert (plen asm i <= plen asm (i + 1)).
      { unfold plen. destruct (Nat.eqb_spec i 0), (Nat.eqb_spec (i + 1) 0); lia. }
      apply K; unfold consumed, vl, fins, bitsleft; cbn [sy_set sy_bytes sy_idx]; rewrite ?VP, ?CP, ?LV, ?NV, <- ?Ei; cbn [bytes_push b_num_read b_reader].
      * split; cbn [sy_set sy_patterns sy_masks sy_block_size sy_idx sy_bytes]; rewrite ?CP; cbn [bytes_push b_num_read]; try assumption; try lia.
      * lia.
      * exact A3.
      * rewrite nb_app, nb_bytes. lia.
      * rewrite app_length, map_length. lia.
      * rewrite app_length, map_length. lia.
  - destruct T as (b1 & E & V1 & C1 & N1 & F1). rewrite E. cbn [obind].
    assert (I1 : inv asm len (sy_set s b1 i)).
    { split; cbn [sy_set sy_patterns sy_masks sy_block_size sy_idx sy_bytes]; try assumption; unfold cl; rewrite C1; cbn; lia. }
    assert (CO : consumed s <= consumed (sy_set s b1 i)) by (unfold consumed, cl; cbn [sy_set sy_bytes]; rewrite C1; cbn [length]; lia).
    assert (VV : vl (sy_set s b1 i) < vl s \/ exists c, fins s = Failing c \/ head_kind ts (fin (b_reader (sy_bytes s))) = UnexpectedEof).
    { unfold vl, fins. cbn [sy_set sy_bytes]. rewrite V1, LV. destruct ts as [|t ts']; cbn [tl length]; [|left; lia].
      right. cbn [head_kind final_kind]. destruct (fin (b_reader (sy_bytes s))) as [|c]; [exists 0%N; right; reflexivity|exists c; left; reflexivity]. }
    destruct (head_kind ts (fin (b_reader (sy_bytes s)))) as [| |c] eqn:HK; eexists; eexists; (split; [reflexivity|]);
      (split; [exact I1|]); (split; [exact CO|]); (split; [exact F1|]); try exact I;
      (destruct VV as [VV|[c' [VV|VV]]]; [left; exact VV|right; exists c'; exact VV|discriminate]).
Qed.

Lemma scan_safe_top : forall s, inv asm len s ->
  exists res s', scan s = Val (res, s') /\ inv asm len s' /\ consumed s <= consumed s' /\
   fins s' = fins s /\
   match res with
   | SOutOfFuel => False
   | SFound l => l_offset l = consumed s' + 1 /\ 8 * vl s' - sy_idx s' < 8 * vl s - sy_idx s
        /\ vl s' <= vl s
        /\ cl (sy_bytes s') = (if sy_idx s' =? 0 then 0 else 1)
   | SNone => True
   | SErr k => vl s' < vl s \/ exists c, fins s = Failing c
   end.
Proof.
  intros s G. apply scan_safe; [exact G|]. unfold bitsleft, scan_fuel, view. rewrite nb_app, nb_bytes, rev_length, evs_len_nb. lia.
Qed.

Lemma read_exact_len : forall n r g s r', read_exact n r = (g, s, r') ->
  match s with None => length g = n | Some _ => length g < n end /\
  length g + length (vtranscript (evs r')) <= length (vtranscript (evs r)) /\ fin r' = fin r.
Proof.
  intros n r g s r' H. unfold read_exact in H. destruct (read_exact_evs n (evs r) (fin r)) as [[g1 s1] e] eqn:E.
  injection H as <- <- <-. apply read_exact_vtok, re_vtok_len in E. cbn [evs fin]. destruct E. auto.
Qed.

Lemma block_safe : forall s, inv asm len s -> cl (sy_bytes s) = (if sy_idx s =? 0 then 0 else 1) ->
  exists br s', sync_block s = Val (br, s') /\ inv asm len s' /\ consumed s <= consumed s' /\ fins s' = fins s /\
    sy_idx s' = sy_idx s /\ vl s' <= vl s /\ (forall data, br = Ok data -> length data = len).
Proof.
  intros s [Gp Gm Gl Gi Gn Gc] HC. unfold sync_block. rewrite Gl. unfold bytes_fill, cl in *.
  destruct (Nat.eq_dec (sy_idx s) 0) as [I0|I0].
  - rewrite I0 in *. cbn [Nat.eqb negb] in *. rewrite Nat.add_0_r.
    destruct (b_cache (sy_bytes s)) as [|] eqn:EC; [|discriminate].
    destruct (read_exact len (b_reader (sy_bytes s))) as [[g st] r'] eqn:R.
    destruct (read_exact_len _ _ _ _ _ R) as (L1 & L2 & F).
    assert (VS : vl s = length (vtranscript (evs (b_reader (sy_bytes s))))) by (unfold vl, view; rewrite EC; reflexivity).
    assert (SH : forall buf, length buf = len -> forall k, k = 0 -> left_shift buf k = Val (left_shift_bytes buf k)).
    { intros buf _ k ->. apply left_shift_val. right; reflexivity. }
    destruct st as [[| |c]|].
    + cbn [obind]. assert (LP : length (padded len g) = len) by (unfold padded; rewrite app_length, repeat_length; lia).
      rewrite left_shift_val by (right; reflexivity). cbn [obind].
      rewrite slice0 by (rewrite left_shift_bytes_length, LP; lia). cbn [obind].
      eexists; eexists. split; [reflexivity|]. unfold consumed, cl, fins. rewrite VS. unfold vl, view. cbn [sy_set sy_bytes sy_idx b_cache b_reader b_num_read length rev map app]. rewrite EC. cbn [length].
      split; [split; cbn [sy_set sy_patterns sy_masks sy_block_size sy_idx sy_bytes]; unfold cl; cbn [b_cache b_num_read length]; try assumption; lia|].
      repeat split; try lia; try assumption. intros data E. injection E as <-. rewrite firstn_length, left_shift_bytes_length, LP. lia.
    + eexists; eexists. split; [reflexivity|]. unfold consumed, cl, fins. rewrite VS. unfold vl, view. cbn [sy_set sy_bytes sy_idx b_cache b_reader b_num_read length rev map app]. rewrite EC. cbn [length].
      split; [split; cbn [sy_set sy_patterns sy_masks sy_block_size sy_idx sy_bytes]; unfold cl; cbn [b_cache b_num_read length]; try assumption; lia|].
      repeat split; try lia; try assumption. intros data E. discriminate.
    + eexists; eexists. split; [reflexivity|]. unfold consumed, cl, fins. rewrite VS. unfold vl, view. cbn [sy_set sy_bytes sy_idx b_cache b_reader b_num_read length rev map app]. rewrite EC. cbn [length].
      split; [split; cbn [sy_set sy_patterns sy_masks sy_block_size sy_idx sy_bytes]; unfold cl; cbn [b_cache b_num_read length]; try assumption; lia|].
      repeat split; try lia; try assumption. intros data E. discriminate.
    + cbn [obind]. rewrite left_shift_val by (right; reflexivity). cbn [obind].
      rewrite slice0 by (rewrite left_shift_bytes_length; lia). cbn [obind].
      eexists; eexists. split; [reflexivity|]. unfold consumed, cl, fins. rewrite VS. unfold vl, view. cbn [sy_set sy_bytes sy_idx b_cache b_reader b_num_read length rev map app]. rewrite EC. cbn [length].
      split; [split; cbn [sy_set sy_patterns sy_masks sy_block_size sy_idx sy_bytes]; unfold cl; cbn [b_cache b_num_read length]; try assumption; lia|].
      repeat split; try lia; try assumption. intros data E. injection E as <-. rewrite firstn_length, left_shift_bytes_length. lia.
  - destruct (Nat.eqb_spec (sy_idx s) 0); [contradiction|]. cbn [negb].
    assert (PL : plen asm (sy_idx s) = length asm + 1) by (unfold plen; destruct (Nat.eqb_spec (sy_idx s) 0); [contradiction|reflexivity]).
    destruct (b_cache (sy_bytes s)) as [|x [|]] eqn:EC; try discriminate. cbn [length] in *.
    assert (VS : vl s = S (length (vtranscript (evs (b_reader (sy_bytes s)))))) by (unfold vl, view; rewrite EC; reflexivity).
    destruct (1 <? len + 1) eqn:L1.
    + apply Nat.ltb_lt in L1. replace (len + 1 - 1) with len by lia.
      destruct (read_exact len (b_reader (sy_bytes s))) as [[g st] r'] eqn:R.
      destruct (read_exact_len _ _ _ _ _ R) as (LG & L2 & F).
      destruct st as [k|].
      * eexists; eexists. split; [reflexivity|]. unfold consumed, cl, fins. rewrite VS. unfold vl, view. cbn [sy_set sy_bytes sy_idx b_cache b_reader b_num_read length rev map app]. rewrite EC. cbn [length].
        split; [split; cbn [sy_set sy_patterns sy_masks sy_block_size sy_idx sy_bytes]; unfold cl; cbn [b_cache b_num_read length]; try assumption; lia|].
        repeat split; try lia; try assumption. intros data E. discriminate.
      * assert (LB : length ([x] ++ g) = S len) by (cbn; lia).
        rewrite (get_nth _ _ _ 0%N) by lia. cbn [obind].
        rewrite left_shift_val by (left; discriminate). cbn [obind].
        rewrite slice0 by (rewrite left_shift_bytes_length, LB; lia). cbn [obind].
        eexists; eexists. split; [reflexivity|]. unfold consumed, cl, fins. rewrite VS. unfold vl, view.
        cbn [sy_set sy_bytes sy_idx b_cache b_reader b_num_read length rev map app bytes_push]. rewrite EC. cbn [length].
        split; [split; cbn [sy_set sy_patterns sy_masks sy_block_size sy_idx sy_bytes]; unfold cl; cbn [b_cache b_num_read length bytes_push app]; try assumption; lia|].
        repeat split; try lia; try assumption. intros data E. assert (ED : data = firstn len (left_shift_bytes (x :: g) (sy_idx s))) by (injection E as <-; reflexivity). rewrite ED, firstn_length, left_shift_bytes_length. cbn [length app] in LB |- *. lia.
    + apply Nat.ltb_ge in L1. assert (len = 0) by lia. rewrite H in *. cbn [Nat.add firstn skipn length Nat.sub]. unfold get. cbn [nth_error obind].
      rewrite left_shift_val by (left; discriminate). cbn [obind].
      rewrite slice0 by lia. cbn [obind firstn].
      eexists; eexists. split; [reflexivity|]. unfold consumed, cl, fins. rewrite VS. unfold vl, view.
      cbn [sy_set sy_bytes sy_idx b_cache b_reader b_num_read length rev map app bytes_push]. rewrite EC. cbn [length].
      split; [split; cbn [sy_set sy_patterns sy_masks sy_block_size sy_idx sy_bytes]; unfold cl; cbn [b_cache b_num_read length bytes_push app]; try assumption; lia|].
      repeat split; try lia; try assumption. intros data E. injection E as <-. reflexivity.
Qed.

Definition binv (s : biter) : Prop := inv asm len (bi_sync s) /\ bi_last s <= consumed (bi_sync s) + 1.
Definition mu (s : biter) : nat := 8 * vl (bi_sync s) + 8 - sy_idx (bi_sync s).

Lemma next_safe : forall s, binv s -> exists o s', biter_next s = Val (o, s') /\ binv s' /\
  fins (bi_sync s') = fins (bi_sync s) /\
  (forall b, o = Some (Ok b) -> length (bl_data b) = len) /\
  (o <> None -> fins (bi_sync s) = AtEof -> mu s' < mu s).
Proof.
  intros s [G HL]. unfold biter_next.
  destruct (scan_safe_top _ G) as (res & s1 & E & G1 & C1 & F1 & R). rewrite E. cbn [obind].
  assert (I1 := i_idx _ _ _ G1). assert (I0 := i_idx _ _ _ G).
  destruct res as [l| |k|]; try contradiction.
  - destruct R as (R1 & R2 & R3 & R4).
    assert (LV : exists last, (if bi_last s =? 0 then Val 0 else usub (l_offset l) (bi_last s)) = Val last).
    { destruct (bi_last s =? 0); [eexists; reflexivity|]. rewrite usub_ok by lia. eexists; reflexivity. }
    destruct LV as [last ->]. cbn [obind].
    destruct (block_safe _ G1 R4) as (br & s2 & E2 & G2 & C2 & F2 & I2 & V2 & D2). rewrite E2. cbn [obind].
    destruct br as [data|e]; eexists; eexists; (split; [reflexivity|]); (split; [split; [exact G2|cbn [bi_last bi_sync]; lia]|]);
      cbn [bi_sync]; (split; [congruence|]); (split; [|unfold mu; cbn [bi_sync]; intros; lia]); intros b EB; [|discriminate].
    injection EB as <-. apply D2. reflexivity.
  - eexists; eexists. split; [reflexivity|]. split; [split; [exact G1|cbn [bi_last bi_sync]; lia]|].
    cbn [bi_sync]. split; [exact F1|]. split; [discriminate|congruence].
  - eexists; eexists. split; [reflexivity|]. split; [split; [exact G1|cbn [bi_last bi_sync]; lia]|].
    cbn [bi_sync]. split; [exact F1|]. split; [discriminate|].
    intros _ A. destruct R as [R|[c R]]; [|congruence]. unfold mu. cbn [bi_sync]. lia.
Qed.

Lemma sync_never_panics : forall items s, binv s -> ~ panics_after biter_next s items.
Proof.
  induction items as [|a items IH]; intros s G P; inversion P; subst.
  - destruct (next_safe s G) as (o & s' & E & _). congruence.
  - destruct (next_safe s G) as (o & s1 & E & G1 & _).
    match goal with X : biter_next s = Val (Some a, _) |- _ => rewrite E in X; injection X as -> -> end.
    eapply IH; eassumption.
Qed.
Lemma sync_ends : forall k s, binv s -> fins (bi_sync s) = AtEof -> mu s <= k ->
  exists items, yields biter_next s items /\ length items <= k.
Proof.
  induction k as [k IH] using lt_wf_ind; intros s G F HK.
  destruct (next_safe s G) as (o & s' & E & G' & F' & _ & M). destruct o as [a|].
  - assert (mu s' < mu s) by (apply M; [discriminate|exact F]).
    destruct (IH (mu s') ltac:(lia) s' G' ltac:(congruence) ltac:(lia)) as (items & Y & L).
    exists (a :: items). split; [eapply yields_cons; eassumption|]. cbn. lia.
  - exists []. split; [eapply yields_nil; exact E|cbn; lia].
Qed.
Lemma binv_start : forall r, binv (synchronize r asm len).
Proof.
  intro r. unfold synchronize, syncer_new. destruct (create_patterns asm) as [pp mm] eqn:E. split; [|cbn; lia].
  split; cbn [bi_sync sy_patterns sy_masks sy_block_size sy_idx sy_bytes bytes_new b_cache b_num_read]; rewrite ?E; try reflexivity; unfold cl; cbn; lia.
Qed.
Lemma yields_lengths : forall s items, yields biter_next s items -> binv s ->
  Forall (fun it => match it with Ok b => length (bl_data b) = len | Err e => True end) items.
Proof.
  induction 1 as [s s' E|s s' a items E Y IH]; intro G; [constructor|].
  destruct (next_safe s G) as (o & s1 & E1 & G1 & _ & D & _). rewrite E in E1. injection E1 as <- <-.
  constructor; [destruct a; [apply D; reflexivity|exact I]|]. apply IH. exact G1.
Qed.
End Safe.
