(* Properties C71, C72: a Synchronizer used through scan() and block(), and its counter of marker positions *)
From Verif Require Import Base S_Bits M_Reader M_Bytes M_Sync S_Packet S_Sync S_SyncDirect L_Base L_Bits L_Timecode L_Reader L_Sync L_SyncBits L_SyncRun L_SyncIter L_SyncSafe.
Open Scope nat_scope.


(* ---- counting bytes ---- *)
Definition counted (bs : bytes) (n : nat) : Prop := cl bs + n <= b_num_read bs.
Lemma next_counted : forall bs n x bs', counted bs n -> bytes_next bs = (x, bs') ->
  b_num_read bs <= b_num_read bs' /\ counted bs' (match x with inl _ => n + 1 | inr _ => n end).
Proof.
  unfold counted, cl. intros [r m c] n x bs' H E. unfold bytes_next in E. cbn [b_cache b_num_read b_reader] in *.
  destruct (cache_cases _ c) as [->|(c' & y & ->)].
  - cbn [vec_pop rev] in E. destruct (read 1 r) as [[[|z l]|k] r']; injection E as <- <-; cbn [b_cache b_num_read length] in *; lia.
  - rewrite vec_pop_snoc in E. injection E as <- <-. cbn [b_cache b_num_read]. rewrite app_length in H. cbn in H. lia.
Qed.
Lemma try_counted : forall pat mask w b bs t, counted bs (length w) -> try_pattern pat mask w b bs = Val t ->
  match t with
  | TMatch _ bs' => b_num_read bs <= b_num_read bs' /\ counted bs' (length w + length pat)
  | TFail w' bs' => b_num_read bs <= b_num_read bs' /\ counted bs' (length w') /\ 1 <= length w'
  | TReadErr _ bs' => b_num_read bs <= b_num_read bs'
  end.
Proof.
  induction pat as [|p pat IH]; intros mask w b bs t H E; cbn [try_pattern] in E.
  - injection E as <-. rewrite Nat.add_0_r. split; [lia|exact H].
  - destruct (bytes_next bs) as [[x|k] bs1] eqn:N; apply (next_counted _ _ _ _ H) in N; destruct N as [M N].
    + destruct mask as [|m mask]; [discriminate|].
      assert (N1 : counted bs1 (length (w ++ [x]))) by (rewrite app_length; exact N).
      destruct (negb _).
      * injection E as <-. split; [exact M|]. split; [exact N1|rewrite app_length; cbn; lia].
      * apply IH in E; [|exact N1]. rewrite app_length in E. cbn [length] in *. destruct t.
        -- split; [lia|]. replace (length w + S (length pat)) with (length w + 1 + length pat) by lia. apply E.
        -- split; [lia|apply E].
        -- lia.
    + injection E as <-. exact M.
Qed.
Definition some_read (s : syncer) : Prop := sy_idx s <> 0 -> 1 <= b_num_read (sy_bytes s).
Lemma scan_some_read : forall fuel s b r s', counted (sy_bytes s) 0 -> some_read s ->
  scan_loop fuel s b = Val (r, s') -> some_read s'.
Proof.
  induction fuel as [|fuel IH]; intros s b r s' HC HS E; cbn [scan_loop] in E.
  - injection E as _ <-. exact HS.
  - destruct (get (sy_patterns s) (sy_idx s)) as [pat|]; [|discriminate]. cbn [obind] in E.
    destruct (get (sy_masks s) (sy_idx s)) as [mask|]; [|discriminate]. cbn [obind] in E.
    destruct (try_pattern pat mask [] b (sy_bytes s)) as [t|] eqn:T; [|discriminate]. cbn [obind] in E.
    apply (try_counted _ _ [] _ _ _ HC) in T. destruct t as [b' bs|w bs|k bs].
    + destruct T as [M _]. destruct (bytes_offset bs) as [off|]; [|discriminate]. cbn [obind] in E. injection E as _ <-.
      unfold some_read in *. cbn [sy_set sy_idx sy_bytes]. intro Z. specialize (HS Z). destruct (0 <? sy_idx s); cbn [bytes_push b_num_read]; lia.
    + destruct T as (M & C & L). unfold counted in C.
      assert (LR : length (removelast (rev w)) <= length w).
      { rewrite removelast_firstn_len, firstn_length, rev_length. lia. }
      destruct (sy_idx s + 1 =? 8); eapply IH; [| |exact E| | |exact E]; unfold counted, cl, some_read in *; cbn [sy_set sy_idx sy_bytes bytes_push b_num_read b_cache];
        rewrite ?app_length, ?rev_length; intros; lia.
    + destruct k; injection E as _ <-; unfold some_read in *; cbn [sy_set sy_idx sy_bytes]; intro Z; specialize (HS Z); lia.
Qed.

(* ---- every sequence of calls on every reader returns ---- *)
Section Any.
Variables (asm : list N) (len : nat).
Hypothesis Hne : asm <> [].

(* what holds between the calls *)
Record calm (s : syncer) : Prop := {
  c_inv : inv asm len s;
  c_cl : cl (sy_bytes s) <= if sy_idx s =? 0 then 0 else 1;
  c_read : some_read s }.

Lemma next_err_cache : forall bs k bs', bytes_next bs = (inr k, bs') -> b_cache bs' = [].
Proof.
  intros [r m c] k bs' E. unfold bytes_next in E. cbn [b_cache b_num_read b_reader] in *.
  destruct (cache_cases _ c) as [->|(c' & y & ->)].
  - cbn [vec_pop rev] in E. destruct (read 1 r) as [[[|z l]|k'] r']; try discriminate E; injection E as _ <-; reflexivity.
  - rewrite vec_pop_snoc in E. discriminate.
Qed.
Lemma try_err_cache : forall pat mask w b bs k bs', try_pattern pat mask w b bs = Val (TReadErr k bs') -> b_cache bs' = [].
Proof.
  induction pat as [|p pat IH]; intros mask w b bs k bs' E; cbn [try_pattern] in E; [discriminate|].
  destruct (bytes_next bs) as [[x|k1] bs1] eqn:N.
  - destruct mask as [|m mask]; [discriminate|]. destruct (negb _); [discriminate|]. eapply IH; exact E.
  - injection E as _ <-. eapply next_err_cache; exact N.
Qed.
Lemma scan_err_cache : forall fuel s b r s', scan_loop fuel s b = Val (r, s') ->
  match r with SNone | SErr _ => b_cache (sy_bytes s') = [] | _ => True end.
Proof.
  induction fuel as [|fuel IH]; intros s b r s' E; cbn [scan_loop] in E.
  - injection E as <- _. exact I.
  - destruct (get (sy_patterns s) (sy_idx s)) as [pat|]; [|discriminate]. cbn [obind] in E.
    destruct (get (sy_masks s) (sy_idx s)) as [mask|]; [|discriminate]. cbn [obind] in E.
    destruct (try_pattern pat mask [] b (sy_bytes s)) as [t|] eqn:T; [|discriminate]. cbn [obind] in E.
    destruct t as [b' bs|w bs|k bs].
    + destruct (bytes_offset bs); [|discriminate]. cbn [obind] in E. injection E as <- _. exact I.
    + destruct (sy_idx s + 1 =? 8); eapply IH; exact E.
    + apply try_err_cache in T. destruct k; injection E as <- <-; exact T.
Qed.
Lemma scan_calm : forall s, calm s -> exists r s', scan s = Val (r, s') /\ calm s' /\ r <> SOutOfFuel.
Proof.
  intros s [G C R]. destruct (scan_safe_top asm len Hne s G) as (r & s' & E & G' & _ & _ & X).
  exists r, s'. split; [exact E|]. split.
  - split; [exact G'| |].
    + assert (Y := scan_err_cache _ _ _ _ _ E). unfold cl. destruct r; try contradiction.
      * destruct X as (_ & _ & _ & X). unfold cl in X. lia.
      * rewrite Y. cbn. lia.
      * rewrite Y. cbn. lia.
    + eapply scan_some_read; [|exact R|exact E]. unfold counted. destruct G. lia.
  - intro Z. rewrite Z in X. exact X.
Qed.

Lemma block_calm : forall s, calm s -> exists r s', sync_block s = Val (r, s') /\ calm s' /\ sy_idx s' = sy_idx s /\
  (forall data, r = Ok data -> length data = len /\ cl (sy_bytes s') = if sy_idx s =? 0 then 0 else 1).
Proof.
  intros s [G C R]. assert (G0 := G). destruct G0 as [Gp Gm Gl Gi Gn Gc].
  destruct (Nat.eq_dec (cl (sy_bytes s)) (if sy_idx s =? 0 then 0 else 1)) as [Q|Q].
  - destruct (block_safe asm len Hne s G Q) as (br & s' & E & G' & _ & _ & EI & _ & DL).
    exists br, s'. split; [exact E|]. cut (cl (sy_bytes s') = (if sy_idx s =? 0 then 0 else 1) /\ some_read s').
    { intros [X Y]. split; [split; [exact G'|rewrite EI; lia|exact Y]|]. split; [exact EI|]. intros data HD. split; [apply DL; exact HD|exact X]. }
    clear G' EI DL. unfold sync_block in E. rewrite Gl in E. unfold some_read in *. unfold bytes_fill, cl in *.
    destruct (Nat.eq_dec (sy_idx s) 0) as [I0|I0].
    + rewrite I0 in *. cbn [Nat.eqb negb] in *. rewrite Nat.add_0_r in E.
      destruct (b_cache (sy_bytes s)) as [|] eqn:EC; [|discriminate].
      destruct (read_exact len (b_reader (sy_bytes s))) as [[g st] r'] eqn:RE.
      destruct st as [[| |c]|]; cbn [obind] in E; rewrite ?left_shift_val in E by (right; reflexivity); cbn [obind] in E;
        try (injection E as _ <-; cbn [sy_set sy_bytes sy_idx b_cache b_num_read length]; split; [reflexivity|rewrite ?I0; congruence]);
        destruct (slice _ 0 len); try discriminate E; cbn [obind] in E; injection E as _ <-;
        cbn [sy_set sy_bytes sy_idx b_cache b_num_read length]; (split; [reflexivity|rewrite ?I0; congruence]).
    + assert (Z := R I0). destruct (Nat.eqb_spec (sy_idx s) 0); [contradiction|]. cbn [negb] in E.
      destruct (b_cache (sy_bytes s)) as [|x [|]] eqn:EC; try discriminate. cbn [length] in *.
      destruct (1 <? len + 1).
      * destruct (read_exact (len + 1 - 1) (b_reader (sy_bytes s))) as [[g st] r'] eqn:RE.
        destruct st as [k|].
        -- injection E as _ <-. cbn [sy_set sy_bytes sy_idx b_cache b_num_read length]. split; [reflexivity|intro; lia].
        -- destruct (get _ _) as [y|]; [|discriminate]. cbn [obind] in E. destruct (left_shift _ _); [|discriminate]. cbn [obind] in E.
           destruct (slice _ 0 len); [|discriminate]. cbn [obind] in E. injection E as _ <-.
           cbn [sy_set sy_bytes sy_idx b_cache b_num_read length bytes_push app]. split; [reflexivity|intro; lia].
      * destruct (get _ _) as [y|]; [|discriminate]. cbn [obind] in E. destruct (left_shift _ _); [|discriminate]. cbn [obind] in E.
        destruct (slice _ 0 len); [|discriminate]. cbn [obind] in E. injection E as _ <-.
        cbn [sy_set sy_bytes sy_idx b_cache b_num_read length bytes_push app]. rewrite app_length, skipn_length. cbn [length].
        split; [lia|intro; lia].
  - destruct (Nat.eqb_spec (sy_idx s) 0) as [I0|I0]; [lia|].
    assert (CE : b_cache (sy_bytes s) = []) by (unfold cl in *; destruct (b_cache (sy_bytes s)); [reflexivity|cbn [length] in *; lia]).
    assert (Z := R I0).
    assert (PL : plen asm (sy_idx s) = length asm + 1) by (unfold plen; destruct (Nat.eqb_spec (sy_idx s) 0); [contradiction|reflexivity]).
    unfold sync_block. rewrite Gl. destruct (Nat.eqb_spec (sy_idx s) 0); [contradiction|]. cbn [negb].
    unfold bytes_fill. rewrite CE.
    destruct (read_exact (len + 1) (b_reader (sy_bytes s))) as [[g st] r'] eqn:RE.
    destruct (read_exact_len _ _ _ _ _ RE) as (L1 & _ & _).
    assert (OK : forall buf n, length buf = len + 1 -> b_num_read (sy_bytes s) <= n -> exists r s',
      (let* bs := (let* x := get buf (length buf - 1) in Val (bytes_push [x] (mkBytes r' n []))) in
       let* sh := left_shift buf (sy_idx s) in
       let* out := slice sh 0 len in Val (Ok out, sy_set s bs (sy_idx s))) = Val (r, s') /\ calm s' /\ sy_idx s' = sy_idx s /\
      (forall data, r = Ok data -> length data = len /\ cl (sy_bytes s') = 1)).
    { intros buf nn LB LN. rewrite (get_nth _ _ _ 0%N) by lia. cbn [obind].
      rewrite left_shift_val by (left; intro Y; rewrite Y in LB; cbn in LB; lia). cbn [obind].
      rewrite slice0 by (rewrite left_shift_bytes_length, LB; lia). cbn [obind].
      eexists; eexists. split; [reflexivity|]. cbn [sy_set sy_idx sy_bytes bytes_push app].
      split; [|split; [reflexivity|]].
      - split.
        + split; cbn [sy_set sy_patterns sy_masks sy_block_size sy_idx sy_bytes]; unfold cl; cbn [b_cache b_num_read length bytes_push app]; try assumption; lia.
        + unfold cl. cbn [sy_set sy_idx sy_bytes b_cache length]. destruct (Nat.eqb_spec (sy_idx s) 0); [contradiction|cbn; lia].
        + unfold some_read. cbn [sy_set sy_idx sy_bytes b_num_read]. intro. cbn; lia.
      - intros data Y. injection Y as <-. rewrite firstn_length, left_shift_bytes_length, LB. split; [lia|reflexivity]. }
    assert (PD : forall g, length g < len + 1 -> length (padded (len + 1) g) = len + 1).
    { intros g0 L. unfold padded. rewrite app_length, repeat_length. lia. }
    assert (BAD : forall e, exists r s', Val (Err e, sy_set s (mkBytes r' (b_num_read (sy_bytes s)) []) (sy_idx s)) = Val (r, s') /\ calm s' /\ sy_idx s' = sy_idx s /\
      (forall data : list N, r = Ok data -> length data = len /\ cl (sy_bytes s') = 1)).
    { intro e. eexists; eexists. split; [reflexivity|]. cbn [sy_set sy_idx sy_bytes]. split; [|split; [reflexivity|discriminate]].
      split.
      + split; cbn [sy_set sy_patterns sy_masks sy_block_size sy_idx sy_bytes]; unfold cl; cbn [b_cache b_num_read length]; try assumption; lia.
      + unfold cl. cbn [sy_set sy_idx sy_bytes b_cache length]. lia.
      + unfold some_read. cbn [sy_set sy_idx sy_bytes b_num_read]. exact R. }
    destruct st as [[| |c]|]; cbn [obind]; [apply OK; [apply PD; exact L1|lia]|apply BAD|apply BAD|apply OK; [exact L1|lia]].
Qed.
Lemma call_calm : forall c s, calm s -> exists a s', one_call c s = Val (a, s') /\ calm s'.
Proof.
  intros [|] s H; unfold one_call.
  - destruct (scan_calm s H) as (r & s' & -> & H' & X). cbn [obind]. destruct r; try (eexists; eexists; split; [reflexivity|exact H']). congruence.
  - destruct (block_calm s H) as (r & s' & -> & H' & _). cbn [obind]. destruct r; eexists; eexists; (split; [reflexivity|exact H']).
Qed.
Lemma calm_start : forall r, calm (syncer_new r len asm).
Proof.
  intro r. destruct (binv_start asm len Hne r) as [G _]. unfold synchronize in G. cbn [bi_sync] in G.
  split; [exact G|unfold syncer_new; destruct (create_patterns asm); unfold cl; cbn; lia|].
  unfold some_read, syncer_new. destruct (create_patterns asm). cbn. congruence.
Qed.
Lemma run_calm : forall cs s, calm s -> exists l s', run_calls cs s = Val (l, s') /\ length l = length cs.
Proof.
  induction cs as [|c cs IH]; intros s H; [exists [], s; split; reflexivity|].
  cbn [run_calls]. destruct (call_calm c s H) as (a & s1 & -> & H1). cbn [obind].
  destruct (IH s1 H1) as (l & s2 & -> & L). cbn [obind]. eexists; eexists. split; [reflexivity|cbn; lia].
Qed.
End Any.

(* ---- a reader that delivers bytes and then ends ---- *)
Section Exact.
Variables (asm : list N) (len : nat).
Hypothesis Hasm : bytes_ok asm.
Hypothesis Hne : asm <> [].

Lemma scan_none_view : forall fuel s b s' l, inv asm len s -> view (sy_bytes s) = map TByte l ->
  scan_loop fuel s b = Val (SNone, s') -> view (sy_bytes s') = [] /\ fins s' = fins s.
Proof.
  induction fuel as [|fuel IH]; intros s b s' l G V E; cbn [scan_loop] in E; [discriminate|].
  assert (Gi := i_idx _ _ _ G). assert (Gp := i_pat _ _ _ G). assert (Gm := i_mask _ _ _ G).
  rewrite Gp, Gm, get_pat, get_mask in E by assumption. cbn [obind] in E.
  assert (LM : length (mask_i asm (sy_idx s)) = length (pat_i asm (sy_idx s))) by (rewrite mask_length, pat_length by assumption; reflexivity).
  assert (T := try_spec (pat_i asm (sy_idx s)) (mask_i asm (sy_idx s)) [] b (sy_bytes s) l [] LM).
  rewrite app_nil_r in T. specialize (T V I).
  destruct (cmp _ _ l) as [|j|] eqn:C.
  - destruct T as (b1 & T & _). rewrite T in E. cbn [obind] in E. destruct (bytes_offset b1); discriminate.
  - destruct T as (b1 & T & V1 & (A1 & A2 & A3)). rewrite T in E. cbn [obind app] in E. rewrite app_nil_r in V1.
    assert (JB := cmp_fail_bound _ _ _ _ C). rewrite pat_length in JB by assumption.
    destruct G as [_ _ Gl _ Gn Gc].
    destruct (sy_idx s + 1 =? 8) eqn:E8.
    + apply Nat.eqb_eq in E8. destruct l as [|x l']; [cbn in JB; lia|]. destruct j as [|j]; [lia|]. cbn [firstn length skipn] in *.
      assert (VP : view (bytes_push (removelast (rev (x :: firstn j l'))) b1) = map TByte l').
      { cbn [rev]. rewrite removelast_last, view_push, V1, <- map_app, firstn_skipn. reflexivity. }
      assert (CP : cl (bytes_push (removelast (rev (x :: firstn j l'))) b1) = cl b1 + j).
      { cbn [rev]. rewrite removelast_last, cl_push, rev_length, firstn_length. lia. }
      assert (plen asm (sy_idx s) = S (plen asm 0)) by (unfold plen; destruct (Nat.eqb_spec (sy_idx s) 0); [lia|cbn; lia]).
      eapply IH in E; [destruct E as [E1 E2]; split; [exact E1|rewrite E2; exact A3]| |cbn [sy_set sy_bytes]; exact VP].
      split; cbn [sy_set sy_patterns sy_masks sy_block_size sy_idx sy_bytes]; rewrite ?CP; cbn [bytes_push b_num_read]; try assumption; try lia.
    + apply Nat.eqb_neq in E8.
      assert (VP : view (bytes_push (rev (firstn j l)) b1) = map TByte l).
      { rewrite view_push, V1, <- map_app, firstn_skipn. reflexivity. }
      assert (CP : cl (bytes_push (rev (firstn j l)) b1) = cl b1 + j) by (rewrite cl_push, rev_length, firstn_length; lia).
      assert (plen asm (sy_idx s) <= plen asm (sy_idx s + 1)).
      { unfold plen. destruct (Nat.eqb_spec (sy_idx s) 0), (Nat.eqb_spec (sy_idx s + 1) 0); lia. }
      eapply IH in E; [destruct E as [E1 E2]; split; [exact E1|rewrite E2; exact A3]| |cbn [sy_set sy_bytes]; exact VP].
      split; cbn [sy_set sy_patterns sy_masks sy_block_size sy_idx sy_bytes]; rewrite ?CP; cbn [bytes_push b_num_read]; try assumption; try lia.
  - destruct T as (b1 & T & V1 & C1 & N1 & F1). rewrite T in E. cbn [obind] in E.
    destruct (head_kind [] (fin (b_reader (sy_bytes s)))) as [| |c] eqn:HK; try discriminate E.
    injection E as <-. unfold fins. cbn [sy_set sy_bytes]. split; [exact V1|exact F1].
Qed.

(* the reader has nothing more to give *)
Record spent (s : syncer) : Prop := {
  sp_calm : calm asm len s;
  sp_fin : fins s = AtEof;
  sp_evs : vtranscript (evs (b_reader (sy_bytes s))) = [] }.
Lemma spent_view : forall s, spent s -> exists l, view (sy_bytes s) = map TByte l /\ length l <= if sy_idx s =? 0 then 0 else 1.
Proof.
  intros s [[G C R] F V]. exists (rev (b_cache (sy_bytes s))). unfold view. rewrite V, app_nil_r. split; [reflexivity|]. rewrite rev_length. exact C.
Qed.

(* fewer bytes than the pattern is long *)
Lemma scan_short : forall fuel s b r s' l, inv asm len s -> view (sy_bytes s) = map TByte l -> fins s = AtEof ->
  length l < plen asm (sy_idx s) -> scan_loop fuel s b = Val (r, s') -> r = SNone \/ r = SOutOfFuel.
Proof.
  induction fuel as [|fuel IH]; intros s b r s' l G V F SH E; cbn [scan_loop] in E; [injection E as <- _; right; reflexivity|].
  assert (Gi := i_idx _ _ _ G). assert (Gp := i_pat _ _ _ G). assert (Gm := i_mask _ _ _ G).
  rewrite Gp, Gm, get_pat, get_mask in E by assumption. cbn [obind] in E.
  assert (LM : length (mask_i asm (sy_idx s)) = length (pat_i asm (sy_idx s))) by (rewrite mask_length, pat_length by assumption; reflexivity).
  assert (T := try_spec (pat_i asm (sy_idx s)) (mask_i asm (sy_idx s)) [] b (sy_bytes s) l [] LM).
  rewrite app_nil_r in T. specialize (T V I).
  destruct (cmp _ _ l) as [|j|] eqn:C.
  - assert (LC := cmp_match_len _ _ _ LM C). rewrite pat_length in LC by assumption. lia.
  - destruct T as (b1 & T & V1 & (A1 & A2 & A3)). rewrite T in E. cbn [obind app] in E. rewrite app_nil_r in V1.
    assert (JB := cmp_fail_bound _ _ _ _ C). rewrite pat_length in JB by assumption.
    destruct G as [_ _ Gl _ Gn Gc]. unfold fins in F.
    destruct (sy_idx s + 1 =? 8) eqn:E8.
    + apply Nat.eqb_eq in E8. destruct l as [|x l']; [cbn in JB; lia|]. destruct j as [|j]; [lia|]. cbn [firstn length skipn] in *.
      assert (VP : view (bytes_push (removelast (rev (x :: firstn j l'))) b1) = map TByte l').
      { cbn [rev]. rewrite removelast_last, view_push, V1, <- map_app, firstn_skipn. reflexivity. }
      assert (CP : cl (bytes_push (removelast (rev (x :: firstn j l'))) b1) = cl b1 + j).
      { cbn [rev]. rewrite removelast_last, cl_push, rev_length, firstn_length. lia. }
      assert (plen asm (sy_idx s) = S (plen asm 0)) by (unfold plen; destruct (Nat.eqb_spec (sy_idx s) 0); [lia|cbn; lia]).
      eapply IH with (5 := E) (2 := VP).
      * split; cbn [sy_set sy_patterns sy_masks sy_block_size sy_idx sy_bytes]; rewrite ?CP; cbn [bytes_push b_num_read]; try assumption; try lia.
      * unfold fins. cbn [sy_set sy_bytes bytes_push b_reader]. congruence.
      * cbn [sy_set sy_idx]. lia.
    + apply Nat.eqb_neq in E8.
      assert (VP : view (bytes_push (rev (firstn j l)) b1) = map TByte l).
      { rewrite view_push, V1, <- map_app, firstn_skipn. reflexivity. }
      assert (CP : cl (bytes_push (rev (firstn j l)) b1) = cl b1 + j) by (rewrite cl_push, rev_length, firstn_length; lia).
      assert (plen asm (sy_idx s) <= plen asm (sy_idx s + 1)).
      { unfold plen. destruct (Nat.eqb_spec (sy_idx s) 0), (Nat.eqb_spec (sy_idx s + 1) 0); lia. }
      eapply IH with (5 := E) (2 := VP).
      * split; cbn [sy_set sy_patterns sy_masks sy_block_size sy_idx sy_bytes]; rewrite ?CP; cbn [bytes_push b_num_read]; try assumption; try lia.
      * unfold fins. cbn [sy_set sy_bytes bytes_push b_reader]. congruence.
      * cbn [sy_set sy_idx]. lia.
  - destruct T as (b1 & T & _). rewrite T in E. cbn [obind head_kind] in E. unfold fins in F. rewrite F in E. cbn [final_kind] in E.
    injection E as <- _. left; reflexivity.
Qed.
Lemma view_nil : forall b, view b = [] -> b_cache b = [] /\ vtranscript (evs (b_reader b)) = [].
Proof.
  intros b H. unfold view in H. apply app_eq_nil in H. destruct H as [A B]. split; [|exact B].
  apply map_eq_nil in A. apply (f_equal (@rev N)) in A. rewrite rev_involutive in A. exact A.
Qed.
Lemma none_spent : forall s s' l, calm asm len s -> view (sy_bytes s) = map TByte l -> fins s = AtEof ->
  scan s = Val (SNone, s') -> spent s'.
Proof.
  intros s s' l C V F E. destruct (scan_none_view _ _ _ _ _ (c_inv _ _ _ C) V E) as [V' F'].
  destruct (scan_calm asm len Hne s C) as (r & s2 & E2 & C2 & _). rewrite E in E2. injection E2 as <- <-.
  split; [exact C2|congruence|apply view_nil; exact V'].
Qed.
Lemma spent_scan : forall s, spent s -> exists s', scan s = Val (SNone, s') /\ spent s'.
Proof.
  intros s H. destruct (spent_view s H) as (l & V & L). assert (H0 := H). destruct H0 as [[G C R] F VT].
  destruct (scan_calm asm len Hne s (sp_calm s H)) as (r & s' & E & C' & X).
  assert (r = SNone).
  { assert (SH : length l < plen asm (sy_idx s)).
    { unfold plen. assert (1 <= length asm) by (destruct asm; [congruence|cbn; lia]). destruct (sy_idx s =? 0); lia. }
    unfold scan in E. destruct (scan_short _ _ _ _ _ _ G V F SH E) as [Y|Y]; [exact Y|contradiction]. }
  subst r. exists s'. split; [exact E|]. eapply none_spent; [exact (sp_calm s H)|exact V|exact F|exact E].
Qed.

Lemma spent_block : forall s, spent s -> exists r s', sync_block s = Val (r, s') /\ spent s' /\
  (forall e, r = Err e -> e = Io UnexpectedEof) /\ (forall data, r = Ok data -> length data = len).
Proof.
  intros s H. assert (H0 := H). destruct H0 as [C F VT].
  destruct (block_calm asm len Hne s C) as (r & s' & E & C' & EI & D). exists r, s'. split; [exact E|].
  cut (fins s' = AtEof /\ vtranscript (evs (b_reader (sy_bytes s'))) = [] /\ (forall e, r = Err e -> e = Io UnexpectedEof)).
  { intros (A1 & A2 & A3). split; [split; assumption|]. split; [exact A3|]. intros data HD. apply D. exact HD. }
  unfold sync_block in E. rewrite (i_len _ _ _ (c_inv _ _ _ C)) in E. unfold bytes_fill, fins in *.
  set (n := len + _) in E. clearbody n.
  assert (K : forall buf bs, fin (b_reader bs) = AtEof -> vtranscript (evs (b_reader bs)) = [] ->
     (let* bs := (if negb (sy_idx s =? 0) then let* x := get buf (length buf - 1) in Val (bytes_push [x] bs) else Val bs) in
      let* sh := left_shift buf (sy_idx s) in
      let* out := slice sh 0 len in Val (Ok out, sy_set s bs (sy_idx s))) = Val (r, s') ->
     fin (b_reader (sy_bytes s')) = AtEof /\ vtranscript (evs (b_reader (sy_bytes s'))) = [] /\ (forall e, r = Err e -> e = Io UnexpectedEof)).
  { intros buf bs A B Q. destruct (negb _).
    - destruct (get _ _); [|discriminate]. cbn [obind] in Q. destruct (left_shift _ _); [|discriminate]. cbn [obind] in Q.
      destruct (slice _ 0 len); [|discriminate]. cbn [obind] in Q. injection Q as <- <-. cbn. split; [exact A|]. split; [exact B|discriminate].
    - cbn [obind] in Q. destruct (left_shift _ _); [|discriminate]. cbn [obind] in Q.
      destruct (slice _ 0 len); [|discriminate]. cbn [obind] in Q. injection Q as <- <-. cbn. split; [exact A|]. split; [exact B|discriminate]. }
  assert (RV : forall k, exists r', fin r' = AtEof /\ vtranscript (evs r') = [] /\
     read_exact k (b_reader (sy_bytes s)) = ([], (if k =? 0 then None else Some UnexpectedEof), r')).
  { intro k. destruct (read_exact_view asm Hasm Hne k (b_reader (sy_bytes s)) [] VT F) as (r' & F' & R). exists r'. split; [exact F'|].
    destruct k; cbn [length Nat.leb Nat.eqb] in *; destruct R as [R1 R2]; (split; [rewrite R2; reflexivity|exact R1]). }
  destruct (b_cache (sy_bytes s)) as [|x c] eqn:EC.
  - destruct (RV n) as (r' & F' & V' & R). rewrite R in E. destruct (n =? 0); cbv beta iota in E; apply K in E; assumption.
  - destruct (length (x :: c) <? n).
    + destruct (RV (n - length (x :: c))) as (r' & F' & V' & R). rewrite R in E. destruct (_ =? 0); cbv beta iota in E.
      * apply K in E; assumption.
      * injection E as <- <-. cbn [sy_set sy_bytes b_reader]. split; [exact F'|]. split; [exact V'|]. intros e Q. injection Q as <-. reflexivity.
    + apply K in E; assumption.
Qed.

Lemma spent_calls : forall cs s, spent s -> exists l s', run_calls cs s = Val (l, s') /\ Forall2 (used_up len) cs l.
Proof.
  induction cs as [|c cs IH]; intros s H; [exists [], s; split; [reflexivity|constructor]|].
  cbn [run_calls]. destruct c; unfold one_call.
  - destruct (spent_scan s H) as (s1 & -> & H1). cbn [obind]. destruct (IH s1 H1) as (l & s2 & -> & X). cbn [obind].
    eexists; eexists. split; [reflexivity|]. constructor; [reflexivity|exact X].
  - destruct (spent_block s H) as (r & s1 & -> & H1 & A & B). cbn [obind]. destruct (IH s1 H1) as (l & s2 & RC & X).
    destruct r as [data|e]; cbn [obind]; rewrite RC; cbn [obind]; eexists; eexists; (split; [reflexivity|]); (constructor; [|exact X]); cbn.
    + right. exists data. split; [reflexivity|apply B; reflexivity].
    + left. f_equal. apply A. reflexivity.
Qed.

(* within the stream *)
Lemma good_calm : forall s pos bs, good asm len 0 bs s pos -> cl (sy_bytes s) = (if pos mod 8 =? 0 then 0 else 1) -> calm asm len s.
Proof.
  intros s pos bs [Gp Gm Gl Gi Gv Gf Gn Gc Gb] HC. split.
  - split; try assumption; [rewrite Gi; apply Nat.mod_upper_bound; lia|lia|rewrite Gi; exact Gc].
  - rewrite Gi. lia.
  - unfold some_read. rewrite Gi. intro Z. destruct (Nat.eqb_spec (pos mod 8) 0); [contradiction|]. lia.
Qed.
Lemma direct_runs : forall bs, bytes_ok bs -> forall cs s pos, good asm len 0 bs s pos ->
  cl (sy_bytes s) = (if pos mod 8 =? 0 then 0 else 1) ->
  exists l s', run_calls cs s = Val (l, s') /\ direct asm len (bits bs) pos cs l.
Proof.
  intros bs Hbs. induction cs as [|c cs IH]; intros s pos G HC; [exists [], s; split; [reflexivity|constructor]|].
  assert (CA := good_calm s pos bs G HC). cbn [run_calls]. destruct c; unfold one_call.
  - destruct (scan_at asm len 0 bs Hasm Hne Hbs s pos G) as (res & s' & E & R). rewrite E. cbn [obind].
    destruct res as [l| | |]; try contradiction.
    + destruct R as (p & EA & -> & G' & C'). rewrite loc_base_0.
      destruct (divmod_add p (length asm)) as [_ DM].
      cbn [obind]. destruct (IH s' (p + 8 * length asm) G' ltac:(rewrite DM; exact C')) as (l & s2 & -> & X). cbn [obind].
      eexists; eexists. split; [reflexivity|]. eapply direct_found; [exact EA|reflexivity|exact X].
    + assert (SP : spent s') by (eapply none_spent; [exact CA|apply (g_view _ _ _ _ _ _ G)|apply (g_fin _ _ _ _ _ _ G)|exact E]).
      cbn [obind]. destruct (spent_calls cs s' SP) as (l & s2 & -> & X). cbn [obind]. eexists; eexists. split; [reflexivity|].
      apply direct_none; assumption.
  - destruct (block_exact asm len 0 bs Hasm Hne Hbs s pos G HC) as (s' & BE).
    destruct (block_calm asm len Hne s CA) as (r & s1 & E1 & C1 & EI & D).
    assert (LB := bits_length bs).
    destruct (pos + 8 * len <=? 8 * length bs) eqn:LE.
    + apply Nat.leb_le in LE. destruct BE as (data & E & Bo & Eb & G'). rewrite E in E1. injection E1 as <- <-. rewrite E. cbn [obind].
      destruct (D data eq_refl) as [_ CL]. rewrite (g_idx _ _ _ _ _ _ G) in CL.
      destruct (divmod_add pos len) as [_ DM].
      destruct (IH s' (pos + 8 * len) G' ltac:(rewrite DM; exact CL)) as (l & s2 & -> & X). cbn [obind].
      eexists; eexists. split; [reflexivity|]. apply direct_block; try assumption. lia.
    + apply Nat.leb_gt in LE. destruct (Nat.eqb_spec (pos mod 8) 0) as [Z|Z].
      * destruct BE as (data & base' & E & Bo & L & Eb & G'). rewrite E in E1. injection E1 as <- <-. rewrite E. cbn [obind].
        assert (SP : spent s').
        { split; [exact C1|exact (g_fin _ _ _ _ _ _ G')|]. apply view_nil. rewrite (g_view _ _ _ _ _ _ G'). reflexivity. }
        cbn [obind]. destruct (spent_calls cs s' SP) as (l & s2 & -> & X). cbn [obind]. eexists; eexists. split; [reflexivity|].
        apply direct_short_aligned; try assumption; [lia|]. rewrite LB. exact Eb.
      * destruct BE as (x & base' & E & Bx & G'). rewrite E in E1. injection E1 as <- <-. rewrite E. cbn [obind].
        assert (SP : spent s').
        { split; [exact C1|exact (g_fin _ _ _ _ _ _ G')|].
          assert (V := g_view _ _ _ _ _ _ G'). assert (I1 := g_idx _ _ _ _ _ _ G').
          rewrite Nat.mod_mod in I1 by lia.
          replace (pos mod 8 / 8) with 0 in V by (symmetry; apply Nat.div_small, Nat.mod_upper_bound; lia). cbn [skipn map] in V.
          unfold sync_block in E. rewrite (g_len _ _ _ _ _ _ G), (g_idx _ _ _ _ _ _ G) in E. unfold bytes_fill in E.
          unfold view in V. destruct (b_cache (sy_bytes s')) as [|y c'] eqn:EC; [|cbn [rev] in V; rewrite map_app in V; cbn [map] in V].
          - exfalso. unfold cl in HC. destruct (b_cache (sy_bytes s)) as [|z [|]] eqn:EZ; try discriminate HC.
            destruct (Nat.eqb_spec (pos mod 8) 0); [contradiction|]. cbn [negb] in E.
            destruct (length [z] <? len + 1).
            + destruct (read_exact _ _) as [[g st] rr]. destruct st as [k|]; [injection E as _ <-; discriminate EC|].
              destruct (get _ _); [|discriminate]. cbn [obind] in E. destruct (left_shift _ _); [|discriminate]. cbn [obind] in E.
              destruct (slice _ 0 len); [|discriminate]. cbn [obind] in E. discriminate.
            + destruct (get _ _); [|discriminate]. cbn [obind] in E. destruct (left_shift _ _); [|discriminate]. cbn [obind] in E.
              destruct (slice _ 0 len); [|discriminate]. cbn [obind] in E. discriminate.
          - destruct (rev c') as [|q qq]; cbn [map app] in V; [injection V as _ V; exact V|].
            injection V as _ V. destruct qq; discriminate. }
        cbn [obind]. destruct (spent_calls cs s' SP) as (l & s2 & -> & X). cbn [obind]. eexists; eexists. split; [reflexivity|].
        apply direct_short_shifted; try assumption. lia.
Qed.
End Exact.

(* ---- C71 ---- *)
(* scan() and block() called in any order on a stream of bytes: scan moves to behind the earliest marker, block takes
   the next bits, whatever was called before; the end is reported once and for all by scan. *)
Theorem C71_any_order_exact : forall asm len r bs cs,
  bytes_ok asm -> asm <> [] -> bytes_ok bs -> delivers r bs ->
  exists l s', run_calls cs (syncer_new r len asm) = Val (l, s') /\ direct asm len (bits bs) 0 cs l.
Proof.
  intros asm len r bs cs Ha Hn Hb HD. apply direct_runs; try assumption; [apply good_start; exact HD|].
  unfold syncer_new. destruct (create_patterns asm). reflexivity.
Qed.

(* every reader: errors, end of file conditions that come and go *)
Theorem C71_every_call_returns : forall asm len r cs, asm <> [] ->
  exists l s', run_calls cs (syncer_new r len asm) = Val (l, s') /\ length l = length cs.
Proof. intros asm len r cs Hn. apply run_calm with (asm := asm) (len := len); [exact Hn|apply calm_start; exact Hn]. Qed.

Print Assumptions C71_any_order_exact.
Print Assumptions C71_every_call_returns.

(* two markers [1], byte aligned and one bit off; behind the end the first block() is padding, the next one refused *)
Example C71_ex : exists s',
  run_calls [CallScan; CallScan; CallBlock; CallBlock; CallScan; CallBlock; CallBlock; CallScan]
    (syncer_new (mkReader [EvData [1; 0; 170]; EvData [85; 7; 0]]%N AtEof) 1 [1]%N) =
  Val ([AFound (mkLoc 2 0); AFound (mkLoc 3 7); ABlock [84]; ABlock [170]; ANone; ABlock [0]; ABlockErr (Io UnexpectedEof); ANone]%N, s').
Proof. eexists. vm_compute. reflexivity. Qed.

(* ---- C72: the counter ---- *)

(* i32: the representative of z modulo 2^32 in [-2^31, 2^31) *)
Definition as_i32 (z : Z) : Z := ((z + 2147483648) mod 4294967296 - 2147483648)%Z.
Lemma as_i32_small : forall z, (0 <= z < 2147483648)%Z -> as_i32 z = z.
Proof. intros z H. unfold as_i32. rewrite Z.mod_small by lia. lia. Qed.
Lemma as_i32_next : forall z, (0 <= z)%Z -> 
  (as_i32 z = 2147483647%Z -> as_i32 (z + 1) = (-2147483648)%Z) /\ (as_i32 z <> 2147483647%Z -> as_i32 (z + 1) = (as_i32 z + 1)%Z).
Proof.
  intros z H. unfold as_i32.
  assert (D := Z.div_mod (z + 2147483648) 4294967296 ltac:(lia)). assert (B := Z.mod_pos_bound (z + 2147483648) 4294967296 ltac:(lia)).
  set (q := ((z + 2147483648) / 4294967296)%Z) in *. set (m := ((z + 2147483648) mod 4294967296)%Z) in *.
  split; intro X.
  - replace (z + 1 + 2147483648)%Z with (0 + (q + 1) * 4294967296)%Z by lia. rewrite Z.mod_add by lia. reflexivity.
  - replace (z + 1 + 2147483648)%Z with ((m + 1) + q * 4294967296)%Z by lia. rewrite Z.mod_add, Z.mod_small by lia. lia.
Qed.

Definition represents (h : hits) (count : nat -> nat) : Prop := forall i,
  hit_get h i = if count i =? 0 then None else Some (as_i32 (Z.of_nat (count i))).

Lemma hit_get_cons : forall j c h i, hit_get ((j, c) :: h) i = if j =? i then Some c else hit_get h i.
Proof. intros. unfold hit_get. cbn [find fst]. destruct (j =? i); reflexivity. Qed.
Lemma hit_add_spec : forall ovf h i, match hit_get h i with
  | None => exists h', hit_add ovf h i = Val h' /\ hit_get h' i = Some 1%Z /\ forall j, j <> i -> hit_get h' j = hit_get h j
  | Some c => if (c =? 2147483647)%Z && ovf then hit_add ovf h i = Panic
      else exists h', hit_add ovf h i = Val h' /\ hit_get h' i = Some (if (c =? 2147483647)%Z then -2147483648 else c + 1)%Z /\
        forall j, j <> i -> hit_get h' j = hit_get h j
  end.
Proof.
  intros ovf h i. induction h as [|[j c] h IH].
  - cbn. eexists. split; [reflexivity|]. rewrite hit_get_cons, Nat.eqb_refl. split; [reflexivity|]. intros k Hk. rewrite hit_get_cons.
    destruct (Nat.eqb_spec i k); [congruence|reflexivity].
  - rewrite hit_get_cons. cbn [hit_add]. destruct (Nat.eqb_spec j i) as [->|NE].
    + unfold i32_inc. destruct (c =? 2147483647)%Z; cbn [andb]; [destruct ovf; [reflexivity|]|]; cbn [obind];
        (eexists; split; [reflexivity|]; rewrite hit_get_cons, Nat.eqb_refl; split; [reflexivity|]; intros k Hk; rewrite !hit_get_cons;
         destruct (Nat.eqb_spec i k); [congruence|reflexivity]).
    + destruct (hit_get h i) as [z|].
      * destruct ((z =? 2147483647)%Z && ovf).
        -- rewrite IH. reflexivity.
        -- destruct IH as (h' & -> & A & B). cbn [obind]. eexists. split; [reflexivity|]. rewrite hit_get_cons. destruct (Nat.eqb_spec j i); [congruence|].
           split; [exact A|]. intros k Hk. rewrite !hit_get_cons. destruct (j =? k); [reflexivity|]. apply B. exact Hk.
      * destruct IH as (h' & -> & A & B). cbn [obind]. eexists. split; [reflexivity|]. rewrite hit_get_cons. destruct (Nat.eqb_spec j i); [congruence|].
        split; [exact A|]. intros k Hk. rewrite !hit_get_cons. destruct (j =? k); [reflexivity|]. apply B. exact Hk.
Qed.
Definition bump (count : nat -> nat) (i j : nat) : nat := if j =? i then S (count j) else count j.
Lemma hit_add_rep : forall ovf h count i, represents h count -> (ovf = true -> Z.of_nat (count i) < 2147483648)%Z ->
  if ovf && (Z.of_nat (count i) =? 2147483647)%Z then hit_add ovf h i = Panic
  else exists h', hit_add ovf h i = Val h' /\ represents h' (bump count i).
Proof.
  intros ovf h count i H HB. assert (X := hit_add_spec ovf h i). assert (HI := H i). rewrite HI in X.
  destruct (Nat.eqb_spec (count i) 0) as [Z|Z].
  - rewrite Z. rewrite andb_false_r. destruct X as (h' & E & A & B). exists h'. split; [exact E|]. intro j. unfold bump.
    destruct (Nat.eqb_spec j i) as [->|NE]; [rewrite A, Z; reflexivity|]. rewrite B by exact NE. apply H.
  - destruct (as_i32_next (Z.of_nat (count i)) ltac:(lia)) as [N1 N2].
    assert (SC : as_i32 (Z.of_nat (S (count i))) = as_i32 (Z.of_nat (count i) + 1)) by (f_equal; lia).
    destruct ovf; cbn [andb] in *.
    + specialize (HB eq_refl). rewrite as_i32_small in X by lia. rewrite andb_true_r in X.
      destruct (Z.eqb_spec (Z.of_nat (count i)) 2147483647) as [E|E]; [exact X|].
      destruct X as (h' & EA & A & B). exists h'. split; [exact EA|]. intro j. unfold bump. destruct (Nat.eqb_spec j i) as [->|NE].
      * rewrite A. cbn [Nat.eqb]. rewrite SC, as_i32_small by lia. reflexivity.
      * rewrite B by exact NE. apply H.
    + rewrite andb_false_r in X. destruct X as (h' & EA & A & B). exists h'. split; [exact EA|]. intro j. unfold bump. destruct (Nat.eqb_spec j i) as [->|NE].
      * rewrite A. cbn [Nat.eqb]. rewrite SC. destruct (Z.eqb_spec (as_i32 (Z.of_nat (count i))) 2147483647) as [E|E]; [rewrite N1 by exact E|rewrite N2 by exact E]; reflexivity.
      * rewrite B by exact NE. apply H.
Qed.

(* the alignment index of a found marker can be read off its location *)
Lemma scan_found_bit : forall fuel s b l s', scan_loop fuel s b = Val (SFound l, s') ->
  l_bit l = ((8 - N.of_nat (sy_idx s')) mod 8)%N.
Proof.
  induction fuel as [|fuel IH]; intros s b l s' E; cbn [scan_loop] in E; [discriminate|].
  destruct (get (sy_patterns s) (sy_idx s)) as [pat|]; [|discriminate]. cbn [obind] in E.
  destruct (get (sy_masks s) (sy_idx s)) as [mask|]; [|discriminate]. cbn [obind] in E.
  destruct (try_pattern pat mask [] b (sy_bytes s)) as [t|] eqn:T; [|discriminate]. cbn [obind] in E.
  destruct t as [b' bs|w bs|k bs].
  - destruct (bytes_offset bs); [|discriminate]. cbn [obind] in E. injection E as <- <-. reflexivity.
  - destruct (sy_idx s + 1 =? 8); eapply IH; exact E.
  - destruct k; discriminate.
Qed.
Lemma found_at_idx : forall i j l, i < 8 -> j < 8 -> l_bit l = ((8 - N.of_nat j) mod 8)%N -> found_at i (AFound l) = (i =? j).
Proof.
  intros i j l Hi Hj E. unfold found_at. rewrite E.
  destruct i as [|[|[|[|[|[|[|[|]]]]]]]]; [..|lia]; destruct j as [|[|[|[|[|[|[|[|]]]]]]]]; try lia; reflexivity.
Qed.
Lemma times_found_cons : forall i a l, times_found i (a :: l) = (if found_at i a then 1 else 0) + times_found i l.
Proof. intros. unfold times_found. cbn [filter]. destruct (found_at i a); reflexivity. Qed.

Section Hits.
Variables (asm : list N) (len : nat).
Hypothesis Hne : asm <> [].

(* at most 8 alignments; the other entries stay empty *)
Definition eight (count : nat -> nat) : Prop := forall i, 8 <= i -> count i = 0.
Lemma hits_run : forall ovf cs s h count l s', calm asm len s -> represents h count -> eight count ->
  run_calls cs s = Val (l, s') ->
  (forall i, i < 8 -> ovf = true -> (Z.of_nat (count i) < 2147483648)%Z) ->
  if ovf && existsb (fun i => (2147483648 <=? Z.of_nat (count i + times_found i l))%Z) (seq 0 8)
  then run_calls_hits ovf cs s h = Panic
  else exists h', run_calls_hits ovf cs s h = Val (l, s', h') /\
       represents h' (fun i => count i + if i <? 8 then times_found i l else 0).
Proof.
  intros ovf. induction cs as [|c cs IH]; intros s h count l s' C R E8 E HB.
  - cbn in E. injection E as <- <-.
    assert (X : ovf && existsb (fun i => (2147483648 <=? Z.of_nat (count i + times_found i []))%Z) (seq 0 8) = false).
    { destruct ovf; [|reflexivity]. cbn [andb]. destruct (existsb _ _) eqn:EX; [|reflexivity]. apply existsb_exists in EX.
      destruct EX as (i & I1 & I2). apply in_seq in I1. specialize (HB i ltac:(lia) eq_refl). unfold times_found in I2. cbn in I2. lia. }
    rewrite X. cbn [run_calls_hits]. exists h. split; [reflexivity|]. intro i. rewrite (R i). unfold times_found. cbn [filter length].
    destruct (i <? 8); rewrite Nat.add_0_r; reflexivity.
  - cbn [run_calls] in E. destruct (call_calm asm len Hne c s C) as (a & s1 & E1 & C1). rewrite E1 in E. cbn [obind] in E.
    destruct (run_calls cs s1) as [[l1 s2]|] eqn:E2; [|discriminate]. cbn [obind] in E. injection E as <- <-.
    assert (QUIET : (forall i, i < 8 -> found_at i a = false) ->
      (match c with
        | CallScan =>
            let* '(r, s, h) := scan_hits ovf s h in
            match r with
            | SFound l => Val (AFound l, s, h)
            | SNone => Val (ANone, s, h)
            | SErr k => Val (AScanErr k, s, h)
            | SOutOfFuel => Panic
            end
        | CallBlock =>
            let* '(r, s) := sync_block s in
            match r with Ok data => Val (ABlock data, s, h) | Err e => Val (ABlockErr e, s, h) end
        end) = Val (a, s1, h) ->
      if ovf && existsb (fun i => (2147483648 <=? Z.of_nat (count i + times_found i (a :: l1)))%Z) (seq 0 8)
      then run_calls_hits ovf (c :: cs) s h = Panic
      else exists h', run_calls_hits ovf (c :: cs) s h = Val (a :: l1, s2, h') /\
           represents h' (fun i => count i + if i <? 8 then times_found i (a :: l1) else 0)).
    { intros NF ST. cbn [run_calls_hits]. rewrite ST. cbn [obind].
      assert (TF : forall i, i < 8 -> times_found i (a :: l1) = times_found i l1).
      { intros i Hi. rewrite times_found_cons, NF by exact Hi. reflexivity. }
      assert (IHs := IH s1 h count l1 s2 C1 R E8 E2 HB).
      replace (existsb (fun i => (2147483648 <=? Z.of_nat (count i + times_found i (a :: l1)))%Z) (seq 0 8))
        with (existsb (fun i => (2147483648 <=? Z.of_nat (count i + times_found i l1))%Z) (seq 0 8)).
      2:{ cbn [seq existsb]. rewrite !TF by lia. reflexivity. }
      destruct (ovf && existsb (fun i => (2147483648 <=? Z.of_nat (count i + times_found i l1))%Z) (seq 0 8)).
      - rewrite IHs. reflexivity.
      - destruct IHs as (h' & -> & R'). cbn [obind]. exists h'. split; [reflexivity|]. intro i. rewrite (R' i).
        destruct (Nat.ltb_spec i 8); [rewrite TF by assumption|]; reflexivity. }
    destruct c; unfold one_call in E1.
    + destruct (scan_calm asm len Hne s C) as (r & s1' & ES & CS & NF). rewrite ES in E1. cbn [obind] in E1.
      destruct r as [l0| |k|]; [|apply QUIET; injection E1 as <- <-; [reflexivity|unfold scan_hits; rewrite ES; reflexivity]
        |apply QUIET; injection E1 as <- <-; [reflexivity|unfold scan_hits; rewrite ES; reflexivity]|discriminate].
      injection E1 as <- <-. clear QUIET.
      assert (J := i_idx _ _ _ (c_inv _ _ _ CS)). set (j := sy_idx s1') in *.
      assert (FB := scan_found_bit _ _ _ _ _ ES). fold j in FB.
      assert (TF : forall i, i < 8 -> times_found i (AFound l0 :: l1) = (if i =? j then 1 else 0) + times_found i l1).
      { intros i Hi. rewrite times_found_cons, (found_at_idx i j l0 Hi J FB). reflexivity. }
      cbn [run_calls_hits]. unfold scan_hits. rewrite ES. cbn [obind]. fold j.
      assert (HA := hit_add_rep ovf h count j R (HB j J)).
      destruct (ovf && (Z.of_nat (count j) =? 2147483647)%Z) eqn:PA.
      * apply andb_prop in PA. destruct PA as [-> PA]. apply Z.eqb_eq in PA.
        replace (existsb (fun i => (2147483648 <=? Z.of_nat (count i + times_found i (AFound l0 :: l1)))%Z) (seq 0 8)) with true.
        2:{ symmetry. apply existsb_exists. exists j. split; [apply in_seq; lia|]. rewrite TF, Nat.eqb_refl by exact J. apply Z.leb_le. lia. }
        cbn [andb]. rewrite HA. reflexivity.
      * destruct HA as (h1 & HA & R1). rewrite HA. cbn [obind].
        assert (E8' : eight (bump count j)) by (intros i Hi; unfold bump; destruct (Nat.eqb_spec i j); [lia|apply E8; exact Hi]).
        assert (HB' : forall i, i < 8 -> ovf = true -> (Z.of_nat (bump count j i) < 2147483648)%Z).
        { intros i Hi HO. specialize (HB i Hi HO). unfold bump. destruct (Nat.eqb_spec i j) as [->|]; [|exact HB].
          rewrite HO in PA. cbn [andb] in PA. apply Z.eqb_neq in PA. lia. }
        assert (IHs := IH s1' h1 (bump count j) l1 s2 CS R1 E8' E2 HB').
        assert (SUM : forall i, i < 8 -> count i + times_found i (AFound l0 :: l1) = bump count j i + times_found i l1).
        { intros i Hi. rewrite TF by exact Hi. unfold bump. destruct (Nat.eqb_spec i j); lia. }
        replace (existsb (fun i => (2147483648 <=? Z.of_nat (count i + times_found i (AFound l0 :: l1)))%Z) (seq 0 8))
          with (existsb (fun i => (2147483648 <=? Z.of_nat (bump count j i + times_found i l1))%Z) (seq 0 8)).
        2:{ cbn [seq existsb]. rewrite !SUM by lia. reflexivity. }
        destruct (ovf && existsb (fun i => (2147483648 <=? Z.of_nat (bump count j i + times_found i l1))%Z) (seq 0 8)).
        -- rewrite IHs. reflexivity.
        -- destruct IHs as (h' & -> & R'). cbn [obind]. exists h'. split; [reflexivity|]. intro i. rewrite (R' i).
           destruct (Nat.ltb_spec i 8) as [Hi|Hi]; [rewrite SUM by exact Hi; reflexivity|].
           unfold bump. destruct (Nat.eqb_spec i j); [lia|reflexivity].
    + destruct (sync_block s) as [[r s3]|] eqn:EB; [|discriminate]. cbn [obind] in E1.
      destruct r; injection E1 as <- <-; apply QUIET; reflexivity.
Qed.
End Hits.

(* The counter holds, for each of the 8 alignments, how often scan() found the marker there, and takes no part in
   anything else, in every build, as long as no alignment was hit 2^31 times. *)
Theorem C72_hits : forall ovf asm len r cs l s', asm <> [] ->
  run_calls cs (syncer_new r len asm) = Val (l, s') ->
  (forall i, i < 8 -> (Z.of_nat (times_found i l) < 2147483648)%Z) ->
  exists h, run_calls_hits ovf cs (syncer_new r len asm) [] = Val (l, s', h) /\
    forall i, hit_get h i =
      if (i <? 8) && (0 <? times_found i l) then Some (Z.of_nat (times_found i l)) else None.
Proof.
  intros ovf asm len r cs l s' Hn E HB.
  assert (X := hits_run asm len Hn ovf cs (syncer_new r len asm) [] (fun _ => 0) l s' (calm_start asm len Hn r)
    (fun i => eq_refl) (fun i _ => eq_refl) E ltac:(intros; cbn; lia)).
  cbv beta in X. cbn [Nat.add] in X.
  replace (existsb (fun i => (2147483648 <=? Z.of_nat (times_found i l))%Z) (seq 0 8)) with false in X.
  2:{ symmetry. destruct (existsb _ _) eqn:EX; [|reflexivity]. apply existsb_exists in EX. destruct EX as (i & I1 & I2).
      apply in_seq in I1. specialize (HB i ltac:(lia)). lia. }
  rewrite andb_false_r in X. destruct X as (h & E1 & R). exists h. split; [exact E1|]. intro i. rewrite (R i).
  destruct (Nat.ltb_spec i 8) as [Hi|Hi]; cbn [andb]; [|reflexivity]. specialize (HB i Hi).
  destruct (Nat.ltb_spec 0 (times_found i l)); destruct (Nat.eqb_spec (times_found i l) 0); try lia; [|reflexivity].
  rewrite as_i32_small by lia. reflexivity.
Qed.
(* In a build with overflow checks the 2^31st marker at one alignment panics ... *)
Theorem C72_overflow_panics_refuted : forall asm len r cs l s', asm <> [] ->
  run_calls cs (syncer_new r len asm) = Val (l, s') ->
  (run_calls_hits true cs (syncer_new r len asm) [] = Panic <->
   exists i, i < 8 /\ (2147483648 <= Z.of_nat (times_found i l))%Z).
Proof.
  intros asm len r cs l s' Hn E.
  assert (X := hits_run asm len Hn true cs (syncer_new r len asm) [] (fun _ => 0) l s' (calm_start asm len Hn r)
    (fun i => eq_refl) (fun i _ => eq_refl) E ltac:(intros; cbn; lia)).
  cbv beta in X. cbn [Nat.add andb] in X.
  destruct (existsb _ (seq 0 8)) eqn:EX.
  - split; [intros _|intros _; exact X]. apply existsb_exists in EX. destruct EX as (i & I1 & I2).
    apply in_seq in I1. exists i. split; [lia|apply Z.leb_le; exact I2].
  - destruct X as (h & E1 & _). rewrite E1. split; [discriminate|]. intros (i & Hi & HL). exfalso.
    assert (Y : existsb (fun i => (2147483648 <=? Z.of_nat (times_found i l))%Z) (seq 0 8) = true).
    { apply existsb_exists. exists i. split; [apply in_seq; lia|apply Z.leb_le; exact HL]. }
    congruence.
Qed.
(* ... and in one without them the count wraps around to negative numbers. *)
Theorem C72_wraps : forall asm len r cs l s', asm <> [] ->
  run_calls cs (syncer_new r len asm) = Val (l, s') ->
  exists h, run_calls_hits false cs (syncer_new r len asm) [] = Val (l, s', h) /\
    forall i, i < 8 -> 0 < times_found i l -> exists c, hit_get h i = Some c /\
      (-2147483648 <= c < 2147483648)%Z /\ exists k, (c = Z.of_nat (times_found i l) + k * 4294967296)%Z.
Proof.
  intros asm len r cs l s' Hn E.
  assert (X := hits_run asm len Hn false cs (syncer_new r len asm) [] (fun _ => 0) l s' (calm_start asm len Hn r)
    (fun i => eq_refl) (fun i _ => eq_refl) E ltac:(intros; cbn; lia)).
  cbv beta in X. cbn [Nat.add andb] in X. destruct X as (h & E1 & R). exists h. split; [exact E1|]. intros i Hi HP.
  exists (as_i32 (Z.of_nat (times_found i l))). rewrite (R i).
  destruct (Nat.ltb_spec i 8); [|lia]. destruct (Nat.eqb_spec (times_found i l) 0); [lia|]. split; [reflexivity|].
  unfold as_i32. set (z := Z.of_nat (times_found i l)).
  assert (B := Z.mod_pos_bound (z + 2147483648) 4294967296 ltac:(lia)). assert (D := Z.div_mod (z + 2147483648) 4294967296 ltac:(lia)).
  split; [lia|]. exists (- ((z + 2147483648) / 4294967296))%Z. lia.
Qed.

(* ---- the iterator ---- *)
Definition bounded (h : hits) (n : nat) : Prop := forall i c, hit_get h i = Some c -> (0 <= c <= Z.of_nat n)%Z.
Lemma hit_add_bounded : forall ovf h n i, bounded h n -> (Z.of_nat (S n) < 2147483648)%Z ->
  exists h', hit_add ovf h i = Val h' /\ bounded h' (S n).
Proof.
  intros ovf h n i H HN. assert (X := hit_add_spec ovf h i).
  destruct (hit_get h i) as [c|] eqn:E.
  - specialize (H i c E) as HC. destruct (Z.eqb_spec c 2147483647); [lia|]. cbn [andb] in X. destruct X as (h' & EA & A & B). exists h'.
    split; [exact EA|]. intros j d Hj. destruct (Nat.eq_dec j i) as [->|NE]; [rewrite A in Hj; injection Hj as <-; lia|].
    rewrite B in Hj by exact NE. specialize (H j d Hj). lia.
  - destruct X as (h' & EA & A & B). exists h'. split; [exact EA|]. intros j d Hj.
    destruct (Nat.eq_dec j i) as [->|NE]; [rewrite A in Hj; injection Hj as <-; lia|]. rewrite B in Hj by exact NE. specialize (H j d Hj). lia.
Qed.
Lemma bounded_mono : forall h n m, bounded h n -> n <= m -> bounded h m.
Proof. intros h n m H L i c E. specialize (H i c E). lia. Qed.
Lemma next_hits_sim : forall ovf s o s' h n, biter_next s = Val (o, s') -> bounded h n -> (Z.of_nat (S n) < 2147483648)%Z ->
  exists h', biter_next_hits ovf (s, h) = Val (o, (s', h')) /\ bounded h' (S n).
Proof.
  intros ovf s o s' h n E HB HN. unfold biter_next in E. unfold biter_next_hits, scan_hits.
  destruct (scan (bi_sync s)) as [[r sy]|]; [|discriminate]. cbn [obind] in *.
  destruct r as [l| |k|].
  - destruct (hit_add_bounded ovf h n (sy_idx sy) HB HN) as (h' & -> & HB'). cbn [obind].
    destruct (if bi_last s =? 0 then _ else _) as [la|]; [|discriminate]. cbn [obind] in *.
    destruct (sync_block sy) as [[br sy']|]; [|discriminate]. cbn [obind] in *. exists h'. split; [|exact HB'].
    destruct br; injection E as <- <-; reflexivity.
  - injection E as <- <-. exists h. split; [reflexivity|]. eapply bounded_mono; [exact HB|lia].
  - injection E as <- <-. exists h. split; [reflexivity|]. eapply bounded_mono; [exact HB|lia].
  - discriminate.
Qed.
Lemma yields_hits : forall ovf s items, yields biter_next s items -> forall h n, bounded h n ->
  (Z.of_nat (n + length items + 1) < 2147483648)%Z -> yields (biter_next_hits ovf) (s, h) items.
Proof.
  intros ovf. induction 1 as [s s' E|s s' a items E Y IH]; intros h n HB HN; cbn [length] in HN.
  - destruct (next_hits_sim ovf s None s' h n E HB ltac:(lia)) as (h' & E' & _). eapply yields_nil; exact E'.
  - destruct (next_hits_sim ovf s (Some a) s' h n E HB ltac:(lia)) as (h' & E' & HB'). eapply yields_cons; [exact E'|].
    apply (IH h' (S n) HB'). lia.
Qed.
(* Iterating over blocks is not affected by the counter below 2^31 items: C23-C29 hold of the code with the counter. *)
Theorem C72_iterator : forall ovf asm len r items,
  yields biter_next (synchronize r asm len) items -> (Z.of_nat (length items) < 2147483647)%Z ->
  yields (biter_next_hits ovf) (synchronize r asm len, []) items.
Proof.
  intros ovf asm len r items Y HN. apply (yields_hits ovf _ items Y [] 0); [intros i c E; discriminate|]. lia.
Qed.

(* a byte-aligned stream of CADUs, long enough *)
Section Long.
Variables (asm : list N) (len : nat) (bs : list N).
Hypothesis Hasm : bytes_ok asm.
Hypothesis Hne : asm <> [].
Hypothesis Hbs : bytes_ok bs.

Lemma aligned_step : forall s last pre b rest h, bs = pre ++ asm ++ b ++ rest -> length b = len ->
  good asm len 0 bs s (8 * length pre) -> last <= length pre + 1 ->
  exists s' blk off, bl_data blk = b /\ good asm len 0 bs s' (8 * length (pre ++ asm ++ b)) /\ off <= length (pre ++ asm ++ b) + 1 /\
    biter_next_hits true (mkBiter s last, h) =
      let* h' := hit_add true h 0 in Val (Some (Ok blk), (mkBiter s' off, h')).
Proof.
  intros s last pre b rest h EB LB G HL.
  assert (BB : bytes_ok b) by (rewrite EB in Hbs; apply bytes_ok_app in Hbs; destruct Hbs as [_ Q]; apply bytes_ok_app in Q; destruct Q as [_ Q]; apply bytes_ok_app in Q; apply Q).
  assert (OC : occurs asm (bits bs) (8 * length pre)).
  { unfold occurs. rewrite EB, bits_app. replace (8 * length pre) with (length (bits pre)) by apply bits_length. rewrite skipn_app_exact.
    rewrite bits_app. rewrite <- (bits_length asm). apply firstn_app_exact. }
  assert (EA : earliest asm (bits bs) (8 * length pre) (8 * length pre)) by (split; [lia|]; split; [exact OC|intros; lia]).
  destruct (scan_at asm len 0 bs Hasm Hne Hbs s _ G) as (res & s1 & E & R).
  destruct res as [l| | |]; try contradiction; [|exfalso; eapply no_more_earliest; eassumption].
  destruct R as (p & EA' & -> & G1 & C1). assert (p = 8 * length pre) by (eapply earliest_unique; eassumption). subst p.
  set (d := 8 * length pre + 8 * length asm) in *.
  assert (DM : d mod 8 = 0) by (unfold d; rewrite <- Nat.mul_add_distr_l, Nat.mul_comm; apply Nat.mod_mul; lia).
  assert (DD : d / 8 = length pre + length asm) by (unfold d; rewrite <- Nat.mul_add_distr_l, Nat.mul_comm; apply Nat.div_mul; lia).
  replace ((8 * length pre) mod 8) with 0 in C1 by (rewrite Nat.mul_comm; symmetry; apply Nat.mod_mul; lia).
  destruct (block_exact asm len 0 bs Hasm Hne Hbs s1 d G1) as (s2 & BE); [rewrite DM; exact C1|].
  assert (LE : length bs = length pre + length asm + length b + length rest) by (rewrite EB, !app_length; lia).
  replace (d + 8 * len <=? 8 * length bs) with true in BE by (symmetry; apply Nat.leb_le; unfold d; lia).
  destruct BE as (data & EK & Bo & Eb & G2).
  assert (data = b).
  { apply bits_inj; [exact Bo|exact BB|]. rewrite Eb, EB. rewrite app_assoc, bits_app.
    replace d with (length (bits (pre ++ asm))) by (rewrite bits_length, app_length; unfold d; lia). rewrite skipn_app_exact, bits_app.
    replace (8 * len) with (length (bits b)) by (rewrite bits_length; lia). apply firstn_app_exact. }
  subst data. unfold biter_next_hits, scan_hits. cbn [bi_sync bi_last]. rewrite E. cbn [obind].
  rewrite (g_idx _ _ _ _ _ _ G1), DM, loc_base_0. 
  exists s2, (mkBlock (if last =? 0 then 0 else l_offset (loc_at d) - last) (loc_at d) b), (l_offset (loc_at d)).
  split; [reflexivity|]. split.
  { replace (8 * length (pre ++ asm ++ b)) with (d + 8 * len) by (rewrite !app_length; unfold d; lia). exact G2. }
  split; [unfold loc_at; cbn [l_offset]; rewrite DD, !app_length; lia|].
  destruct (hit_add true h 0) as [h'|]; [|reflexivity]. cbn [obind].
  replace (if last =? 0 then Val 0 else usub (l_offset (loc_at d)) last) with (Val (if last =? 0 then 0 else l_offset (loc_at d) - last)).
  2:{ destruct (Nat.eqb_spec last 0); [reflexivity|]. rewrite usub_ok by (unfold loc_at; cbn [l_offset]; rewrite DD; lia). reflexivity. }
  cbn [obind]. rewrite EK. reflexivity.
Qed.

Lemma long_panics : forall m blocks s last pre rest h c,
  bs = pre ++ flat_map (fun b => asm ++ b) blocks ++ rest -> Forall (fun b => length b = len) blocks ->
  good asm len 0 bs s (8 * length pre) -> last <= length pre + 1 ->
  represents h (fun i => if i =? 0 then c else 0) ->
  (Z.of_nat c + Z.of_nat m = 2147483647)%Z -> m < length blocks ->
  exists items, panics_after (biter_next_hits true) (mkBiter s last, h) (map Ok items) /\ map bl_data items = firstn m blocks.
Proof.
  induction m as [|m IH]; intros blocks s last pre rest h c EB FL G HL R HZ HM.
  - destruct blocks as [|b blocks]; [cbn in HM; lia|]. cbn [flat_map] in EB. rewrite <- !app_assoc in EB.
    destruct (aligned_step s last pre b _ h EB (Forall_inv FL) G HL) as (s' & blk & off & _ & _ & _ & E).
    assert (X := hit_add_rep true h _ 0 R). cbn [Nat.eqb andb] in X. specialize (X ltac:(intros; lia)).
    replace (Z.of_nat c =? 2147483647)%Z with true in X by (symmetry; apply Z.eqb_eq; lia).
    exists []. split; [|reflexivity]. apply panics_nil. rewrite E, X. reflexivity.
  - destruct blocks as [|b blocks]; [cbn in HM; lia|]. cbn [flat_map] in EB. rewrite <- !app_assoc in EB.
    destruct (aligned_step s last pre b _ h EB (Forall_inv FL) G HL) as (s' & blk & off & HD & G' & HO & E).
    assert (X := hit_add_rep true h _ 0 R). cbn [Nat.eqb andb] in X. specialize (X ltac:(intros; lia)).
    replace (Z.of_nat c =? 2147483647)%Z with false in X by (symmetry; apply Z.eqb_neq; lia).
    destruct X as (h' & EA & R'). rewrite EA in E. cbn [obind] in E.
    destruct (IH blocks s' off (pre ++ asm ++ b) rest h' (S c)) as (items & P & HI).
    + rewrite EB, <- !app_assoc. reflexivity.
    + exact (Forall_inv_tail FL).
    + exact G'.
    + exact HO.
    + intro i. rewrite (R' i). unfold bump. destruct (Nat.eqb_spec i 0); reflexivity.
    + lia.
    + cbn in HM. lia.
    + exists (blk :: items). cbn [map firstn]. split; [eapply panics_cons; [exact E|exact P]|]. rewrite HD, HI. reflexivity.
Qed.
End Long.

(* In a build with overflow checks no stream with 2^31 byte aligned CADUs can be read to its end: the call after
   2147483647 blocks panics. *)
Theorem C72_iterator_panics_refuted : forall asm len r blocks rest,
  bytes_ok asm -> asm <> [] -> bytes_ok (flat_map (fun b => asm ++ b) blocks ++ rest) ->
  delivers r (flat_map (fun b => asm ++ b) blocks ++ rest) -> Forall (fun b => length b = len) blocks ->
  (2147483648 <= Z.of_nat (length blocks))%Z ->
  exists items, panics_after (biter_next_hits true) (synchronize r asm len, []) (map Ok items) /\
    Z.of_nat (length items) = 2147483647%Z /\ exists later, blocks = map bl_data items ++ later.
Proof.
  intros asm len r blocks rest Ha Hn Hb HD FL HZ.
  destruct (long_panics asm len _ Ha Hn Hb (Z.to_nat 2147483647) blocks (syncer_new r len asm) 0 [] rest [] 0) as (items & P & HI).
  - reflexivity.
  - exact FL.
  - apply good_start. exact HD.
  - cbn. lia.
  - intro i. destruct (i =? 0); reflexivity.
  - rewrite Z2Nat.id by lia. reflexivity.
  - lia.
  - exists items. split; [exact P|]. split.
    + apply (f_equal (@length _)) in HI. rewrite map_length, firstn_length in HI. lia.
    + exists (skipn (Z.to_nat 2147483647) blocks). rewrite HI. symmetry. apply firstn_skipn.
Qed.
Print Assumptions C72_hits.
Print Assumptions C72_overflow_panics_refuted.
Print Assumptions C72_wraps.
Print Assumptions C72_iterator.
Print Assumptions C72_iterator_panics_refuted.

Example C72_ex : exists s',
  run_calls_hits true [CallScan; CallScan; CallBlock; CallScan; CallScan]
    (syncer_new (mkReader [EvData [1; 0; 170]; EvData [85; 1; 1]]%N AtEof) 1 [1]%N) [] =
  Val ([AFound (mkLoc 2 0); AFound (mkLoc 3 7); ABlock [84]; AFound (mkLoc 6 0); AFound (mkLoc 7 0)]%N, s', [(0, 3%Z); (1, 1%Z)]).
Proof. eexists. vm_compute. reflexivity. Qed.
(* such streams exist: n blocks [7], n = 2^31 *)
Lemma long_stream : forall n, Z.of_nat n = 2147483648%Z ->
  exists items, panics_after (biter_next_hits true)
    (synchronize (mkReader [EvData (flat_map (fun b => [26; 207; 252; 29] ++ b) (repeat [7] n))]%N AtEof) [26; 207; 252; 29]%N 1, []) (map Ok items).
Proof.
  intros n Hn.
  assert (BO : bytes_ok (flat_map (fun b => [26; 207; 252; 29] ++ b) (repeat [7] n) ++ [])%N).
  { rewrite app_nil_r. apply Forall_forall. intros x Hx. apply in_flat_map in Hx. destruct Hx as (b & I1 & I2). apply repeat_spec in I1. subst b.
    cbn in I2. repeat (destruct I2 as [<-|I2]; [lia|]). contradiction. }
  destruct (C72_iterator_panics_refuted [26; 207; 252; 29]%N 1
    (mkReader [EvData (flat_map (fun b => [26; 207; 252; 29] ++ b) (repeat [7] n))]%N AtEof) (repeat [7] n)%N []) as (items & P & _).
  - repeat constructor; lia.
  - discriminate.
  - exact BO.
  - split; [|reflexivity]. rewrite app_nil_r. cbn [evs]. rewrite vdata; [cbn; apply app_nil_r|].
    destruct n; [discriminate|]. discriminate.
  - apply Forall_forall. intros b Hb. apply repeat_spec in Hb. subst b. reflexivity.
  - rewrite repeat_length, Hn. lia.
  - exists items. exact P.
Qed.
Example C72_ex_long : exists r items, panics_after (biter_next_hits true) (synchronize r [26; 207; 252; 29]%N 1, []) (map Ok items).
Proof. destruct (long_stream (Z.to_nat 2147483648)) as (items & P); [apply Z2Nat.id; lia|]. eexists _, items. exact P. Qed.
