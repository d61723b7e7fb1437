From Verif Require Import Base S_Bits M_Reader M_Bytes M_Sync S_Packet S_Sync L_Base L_Bits L_Timecode L_Reader L_Sync L_SyncBits.
Open Scope nat_scope.

Lemma occurs_bound : forall asm B q, asm <> [] -> occurs asm B q -> q + 8 * length asm <= length B.
Proof.
  intros asm B q Hne H. unfold occurs in H. apply (f_equal (@length bool)) in H.
  rewrite firstn_length, skipn_length, bits_length in H.
  assert (1 <= length asm) by (destruct asm; [congruence|cbn; lia]). lia.
Qed.

(* the synchronizer is at bit [pos] of the stream bs; [base] bytes were counted before bs *)
Record good (asm : list N) (len base : nat) (bs : list N) (s : syncer) (pos : nat) : Prop := {
  g_pat : sy_patterns s = fst (create_patterns asm);
  g_mask : sy_masks s = snd (create_patterns asm);
  g_len : sy_block_size s = len;
  g_idx : sy_idx s = pos mod 8;
  g_view : view (sy_bytes s) = map TByte (skipn (pos / 8) bs);
  g_fin : fin (b_reader (sy_bytes s)) = AtEof;
  g_num : b_num_read (sy_bytes s) = base + pos / 8 + cl (sy_bytes s);
  g_cl : cl (sy_bytes s) <= plen asm (pos mod 8);
  g_pos : pos <= 8 * length bs }.

Lemma get_pat : forall asm i, i < 8 -> get (fst (create_patterns asm)) i = Val (pat_i asm i).
Proof. intros. unfold pat_i. apply get_nth. cbn. lia. Qed.
Lemma get_mask : forall asm i, i < 8 -> get (snd (create_patterns asm)) i = Val (mask_i asm i).
Proof. intros. unfold mask_i. apply get_nth. cbn. lia. Qed.

Lemma skipn_last : forall (rem : list N) n b, n < length rem ->
  skipn n rem = last (firstn (S n) rem) b :: skipn (S n) rem.
Proof.
  induction rem as [|x rem IH]; intros n b H; [cbn in H; lia|]. destruct n as [|n]; [reflexivity|].
  cbn [skipn]. cbn in H. rewrite (IH n b) by lia.
  change (firstn (S (S n)) (x :: rem)) with (x :: firstn (S n) rem).
  destruct rem as [|y rem]; [cbn in H; lia|]. reflexivity.
Qed.

Lemma divmod_add : forall pos n, (pos + 8 * n) / 8 = pos / 8 + n /\ (pos + 8 * n) mod 8 = pos mod 8.
Proof. intros. rewrite (Nat.mul_comm 8 n). rewrite Nat.div_add, Nat.mod_add by lia. auto. Qed.

Lemma divmod_succ : forall pos,
  (pos mod 8 < 7 /\ (pos + 1) / 8 = pos / 8 /\ (pos + 1) mod 8 = pos mod 8 + 1) \/
  (pos mod 8 = 7 /\ (pos + 1) / 8 = pos / 8 + 1 /\ (pos + 1) mod 8 = 0).
Proof.
  intro pos. assert (D := Nat.div_mod pos 8 ltac:(lia)). assert (B := Nat.mod_upper_bound pos 8 ltac:(lia)).
  destruct (Nat.lt_ge_cases (pos mod 8) 7).
  - left. split; [assumption|].
    assert (pos + 1 = 8 * (pos / 8) + (pos mod 8 + 1)) by lia.
    split; symmetry; [eapply Nat.div_unique|eapply Nat.mod_unique]; [|exact H0| |exact H0]; lia.
  - right. split; [lia|].
    assert (pos + 1 = 8 * (pos / 8 + 1) + 0) by lia.
    split; symmetry; [eapply Nat.div_unique|eapply Nat.mod_unique]; [|exact H0| |exact H0]; lia.
Qed.

Definition loc_base (base d : nat) : loc := mkLoc (base + l_offset (loc_at d)) (l_bit (loc_at d)).

Section Run.
Variables (asm : list N) (len base : nat) (bs : list N).
Hypothesis Hasm : bytes_ok asm.
Hypothesis Hne : asm <> [].
Hypothesis Hbs : bytes_ok bs.

Let n_pos : 1 <= length asm. Proof. destruct asm; [congruence|cbn; lia]. Qed.

Lemma scan_exact : forall fuel s b pos, good asm len base bs s pos -> 8 * length bs - pos < fuel ->
  exists res s', scan_loop fuel s b = Val (res, s') /\
  match res with
  | SFound l => exists p, earliest asm (bits bs) pos p /\ l = loc_base base (p + 8 * length asm)
                /\ good asm len base bs s' (p + 8 * length asm)
                /\ cl (sy_bytes s') = if p mod 8 =? 0 then 0 else 1
  | SNone => no_more asm (bits bs) pos
  | _ => False
  end.
Proof.
  induction fuel as [|fuel IH]; intros s b pos G HF; [lia|].
  destruct G as [Gp Gm Gl Gi Gv Gf Gn Gc Gb].
  set (off := pos / 8) in *. set (i := pos mod 8) in *.
  assert (D : pos = 8 * off + i) by (apply Nat.div_mod; lia).
  assert (Bi : i < 8) by (apply Nat.mod_upper_bound; lia).
  assert (HO : off <= length bs) by lia.
  set (rem := skipn off bs) in *.
  assert (Lr : length rem = length bs - off) by apply skipn_length.
  assert (Hrem : bytes_ok rem) by (apply bytes_ok_skipn; assumption).
  assert (OCC : cmp (pat_i asm i) (mask_i asm i) rem = CMatch <-> occurs asm (bits bs) pos).
  { rewrite pattern_match by assumption. rewrite D, occurs_rem. reflexivity. }
  assert (LM : length (mask_i asm i) = length (pat_i asm i)) by (rewrite mask_length, pat_length by assumption; reflexivity).
  cbn [scan_loop]. rewrite Gp, Gm, Gi, get_pat, get_mask by assumption. cbn [obind].
  assert (T := try_spec (pat_i asm i) (mask_i asm i) [] b (sy_bytes s) rem [] LM).
  rewrite app_nil_r in T. specialize (T Gv I).
  destruct (cmp (pat_i asm i) (mask_i asm i) rem) as [|j|] eqn:C.
  - (* match *)
    destruct T as (b1 & E & V & (A1 & A2 & A3)). rewrite E. cbn [obind].
    assert (LC := cmp_match_len _ _ _ LM C). rewrite pat_length in * by assumption. rewrite app_nil_r in V.
    assert (C0 : cl b1 = 0) by lia.
    assert (N1 : b_num_read b1 = base + off + plen asm i) by lia.
    unfold bytes_offset. fold (cl b1). rewrite usub_ok by lia. rewrite C0, Nat.sub_0_r, N1. cbn [obind].
    destruct (divmod_add pos (length asm)) as [DD DM]. fold off in DD. fold i in DM.
    assert (EA : earliest asm (bits bs) pos pos).
    { split; [lia|]. split; [apply OCC; reflexivity|]. intros q Hq. lia. }
    assert (PB : pos + 8 * length asm <= 8 * length bs).
    { rewrite <- (bits_length bs). apply occurs_bound; [exact Hne|]. apply OCC. reflexivity. }
    destruct (Nat.eq_dec i 0) as [I0|I0].
    + rewrite I0 in *. change ((8 - N.of_nat 0) mod 8 =? 0)%N with true. cbv iota. change (0 <? 0) with false. cbv iota.
      eexists; eexists. split; [reflexivity|]. exists pos. split; [exact EA|].
      unfold plen in N1, LC. cbn [Nat.eqb] in N1, LC. rewrite Nat.add_0_r in N1, LC.
      split. { unfold loc_base, loc_at. rewrite DD, DM. unfold plen. cbn [Nat.eqb l_offset l_bit]. f_equal. lia. }
      split.
      * split; cbn [sy_set sy_patterns sy_masks sy_block_size sy_idx sy_bytes]; rewrite ?DD, ?DM; try assumption.
        -- reflexivity.
        -- rewrite V. unfold plen. cbn [Nat.eqb]. rewrite Nat.add_0_r. unfold rem. rewrite skipn_skipn. f_equal. f_equal. lia.
        -- congruence.
        -- lia.
        -- lia.
      * cbn [sy_set sy_bytes]. fold i. rewrite I0. exact C0.
    + replace ((8 - N.of_nat i) mod 8 =? 0)%N with false.
      2:{ symmetry. apply N.eqb_neq. rewrite N.mod_small by lia. lia. }
      replace (0 <? i) with true by (symmetry; apply Nat.ltb_lt; lia).
      assert (PL : plen asm i = S (length asm)) by (unfold plen; destruct (Nat.eqb_spec i 0); lia).
      eexists; eexists. split; [reflexivity|]. exists pos. split; [exact EA|]. rewrite PL in *.
      split. { unfold loc_base, loc_at. rewrite DD, DM. cbn [l_offset l_bit]. f_equal; [lia|].
               rewrite N.mod_small by lia. rewrite Nat.mod_small by lia. lia. }
      split.
      * split; cbn [sy_set sy_patterns sy_masks sy_block_size sy_idx sy_bytes]; rewrite ?DD, ?DM; try assumption.
        -- reflexivity.
        -- change [last (firstn (S (length asm)) rem) b] with (rev [last (firstn (S (length asm)) rem) b]).
           rewrite view_push, V. cbn [map app].
           replace (skipn (off + length asm) bs) with (skipn (length asm) rem)
             by (unfold rem; rewrite skipn_skipn; f_equal; lia).
           rewrite (skipn_last rem (length asm) b) by lia. reflexivity.
        -- cbn [bytes_push b_reader]. congruence.
        -- rewrite cl_push, C0. cbn [bytes_push b_num_read length]. lia.
        -- rewrite cl_push, C0. rewrite PL. cbn [length]. lia.
      * cbn [sy_set sy_bytes]. fold i. rewrite cl_push, C0. destruct (Nat.eqb_spec i 0); [contradiction|reflexivity].
  - (* no match *)
    destruct T as (b1 & E & V & (A1 & A2 & A3)). rewrite E. cbn [obind app].
    assert (JB := cmp_fail_bound _ _ _ _ C). rewrite pat_length in JB by assumption. rewrite app_nil_r in V.
    assert (NO : ~ occurs asm (bits bs) pos) by (intro X; apply OCC in X; discriminate).
    assert (K : forall s', good asm len base bs s' (pos + 1) ->
      exists res s'', scan_loop fuel s' (last (firstn j rem) 0%N) = Val (res, s'') /\
      match res with
      | SFound l => exists p, earliest asm (bits bs) pos p /\ l = loc_base base (p + 8 * length asm)
                /\ good asm len base bs s'' (p + 8 * length asm)
                /\ cl (sy_bytes s'') = if p mod 8 =? 0 then 0 else 1
      | SNone => no_more asm (bits bs) pos
      | _ => False
      end).
    { intros s' G'. destruct (IH s' (last (firstn j rem) 0%N) (pos + 1) G' ltac:(lia)) as (res & s'' & E' & R).
      exists res, s''. split; [exact E'|]. destruct res as [l| | |]; try contradiction.
      - destruct R as (p & (P1 & P2 & P3) & R2). exists p. split; [|exact R2]. split; [lia|]. split; [exact P2|].
        intros q Hq. destruct (Nat.eq_dec q pos) as [->|]; [exact NO|]. apply P3. lia.
      - intros q Hq. destruct (Nat.eq_dec q pos) as [->|]; [exact NO|]. apply R. lia. }
    assert (LF : length (firstn j rem) = j) by (rewrite firstn_length; lia).
    destruct (divmod_succ pos) as [(S1 & S2 & S3)|(S1 & S2 & S3)]; fold i in S1, S3; fold off in S2.
    + replace (i + 1 =? 8) with false by (symmetry; apply Nat.eqb_neq; lia).
      apply K. split; cbn [sy_set sy_patterns sy_masks sy_block_size sy_idx sy_bytes]; rewrite ?S2, ?S3; try assumption.
      * reflexivity.
      * rewrite view_push, V, <- map_app, firstn_skipn. reflexivity.
      * cbn [bytes_push b_reader]. congruence.
      * rewrite cl_push, rev_length, LF. cbn [bytes_push b_num_read]. lia.
      * rewrite cl_push, rev_length, LF. assert (plen asm i <= plen asm (i + 1)).
        { unfold plen. destruct (Nat.eqb_spec i 0), (Nat.eqb_spec (i + 1) 0); lia. } lia.
      * lia.
    + rewrite S1. change (7 + 1 =? 8) with true. cbv iota.
      destruct rem as [|x rem'] eqn:ER; [cbn in JB; lia|]. destruct j as [|j]; [lia|]. cbn [firstn] in *.
      apply K. split; cbn [sy_set sy_patterns sy_masks sy_block_size sy_idx sy_bytes]; rewrite ?S2, ?S3; try assumption.
      * reflexivity.
      * cbn [rev]. rewrite removelast_last. rewrite view_push, V. cbn [skipn]. rewrite <- map_app, firstn_skipn.
        f_equal. rewrite (Nat.add_comm off 1), <- skipn_skipn. fold rem. rewrite ER. reflexivity.
      * cbn [bytes_push b_reader]. congruence.
      * cbn [rev]. rewrite removelast_last, cl_push, rev_length. cbn [length] in LF. cbn [bytes_push b_num_read]. lia.
      * cbn [rev]. rewrite removelast_last, cl_push, rev_length. cbn [length] in LF.
        assert (plen asm i = S (plen asm 0)) by (rewrite S1; unfold plen; cbn; lia). lia.
      * cbn [length] in Lr. lia.
  - (* end of data *)
    destruct T as (b1 & E & V & _). rewrite E. cbn [obind head_kind]. rewrite Gf. cbn [final_kind].
    eexists; eexists. split; [reflexivity|]. cbn. intros q Hq X. apply occurs_bound in X; [|exact Hne].
    apply cmp_short_len in C; [|exact LM]. rewrite pat_length in C by assumption. rewrite bits_length in X.
    unfold plen in C. destruct (Nat.eqb_spec i 0); lia.
Qed.

Lemma vlen_evs : forall es, evs_len es <= length (vtranscript es).
Proof.
  induction es as [|e es IH]; [cbn; lia|].
  change (evs_len (e :: es)) with (ev_len e + evs_len es).
  change (vtranscript (e :: es)) with (vtokens_of_event e ++ vtranscript es). rewrite app_length.
  destruct e as [[|b d]|k]; cbn [vtokens_of_event ev_len length]; try lia. rewrite map_length. cbn [length]. lia.
Qed.
Lemma evs_len_v : forall es l, vtranscript es = map TByte l -> evs_len es = length l.
Proof.
  induction es as [|[d|k] es IH]; intros l H.
  - destruct l; [reflexivity|discriminate].
  - destruct d as [|b d]; [destruct l; discriminate|]. rewrite vdata in H by discriminate.
    assert (exists l2, l = (b :: d) ++ l2).
    { exists (skipn (length (b :: d)) l). revert H. generalize (b :: d) as c. intro c. revert l. induction c as [|y c IHc]; intros l H; [reflexivity|].
      destruct l as [|z l]; [discriminate|]. cbn in H. injection H as -> H. cbn. f_equal. apply IHc. exact H. }
    destruct H0 as [l2 ->]. rewrite map_app in H. apply app_inv_head in H. apply IH in H.
    cbn. unfold evs_len in H. rewrite H. rewrite app_length. lia.
  - destruct l; discriminate.
Qed.

Lemma scan_at : forall s pos, good asm len base bs s pos ->
  exists res s', scan s = Val (res, s') /\
  match res with
  | SFound l => exists p, earliest asm (bits bs) pos p /\ l = loc_base base (p + 8 * length asm)
                /\ good asm len base bs s' (p + 8 * length asm)
                /\ cl (sy_bytes s') = if p mod 8 =? 0 then 0 else 1
  | SNone => no_more asm (bits bs) pos
  | _ => False
  end.
Proof.
  intros s pos G. apply scan_exact with (pos := pos); [exact G|]. unfold scan_fuel.
  destruct G as [_ _ _ _ Gv _ _ _ Gb]. unfold view in Gv.
  assert (exists l2, vtranscript (evs (b_reader (sy_bytes s))) = map TByte l2 /\
     length (b_cache (sy_bytes s)) + length l2 = length bs - pos / 8).
  { assert (L := f_equal (@length token) Gv). rewrite app_length, !map_length, rev_length, skipn_length in L.
    exists (skipn (length (b_cache (sy_bytes s))) (skipn (pos / 8) bs)). split.
    - apply (f_equal (skipn (length (b_cache (sy_bytes s))))) in Gv.
      replace (length (b_cache (sy_bytes s))) with (length (map TByte (rev (b_cache (sy_bytes s))))) in Gv at 1 by (rewrite map_length, rev_length; reflexivity).
      rewrite skipn_app_exact, skipn_map in Gv. exact Gv.
    - rewrite !skipn_length. rewrite <- L. lia. }
  destruct H as (l2 & V2 & L2). rewrite (evs_len_v _ _ V2), L2.
  assert (D := Nat.div_mod pos 8 ltac:(lia)). assert (B := Nat.mod_upper_bound pos 8 ltac:(lia)). lia.
Qed.

(* ---- fetching a block ---- *)
Lemma re_vtok_full : forall n rem f, n <= length rem ->
  re_vtok n (map TByte rem) f = (firstn n rem, None, map TByte (skipn n rem)).
Proof.
  intros n rem f H. rewrite <- (firstn_skipn n rem) at 1. rewrite map_app, re_vtok_bytes by (rewrite firstn_length; lia).
  rewrite firstn_length. replace (n - min n (length rem)) with 0 by lia. cbn. rewrite app_nil_r. reflexivity.
Qed.
Lemma re_vtok_short : forall n rem f, length rem < n ->
  re_vtok n (map TByte rem) f = (rem, Some (final_kind f), []).
Proof.
  intros n rem f H. rewrite <- (app_nil_r (map TByte rem)). rewrite re_vtok_bytes by lia.
  destruct (n - length rem) eqn:E; [lia|]. cbn. rewrite app_nil_r. reflexivity.
Qed.

Lemma left_shift_val : forall l k, l <> [] \/ k = 0 -> left_shift l k = Val (left_shift_bytes l k).
Proof. intros [|x l] k [H|H]; try reflexivity; [congruence|subst; reflexivity]. Qed.

Lemma read_exact_view : forall n r l, vtranscript (evs r) = map TByte l -> fin r = AtEof ->
  exists r', fin r' = AtEof /\
  if n <=? length l then read_exact n r = (firstn n l, None, r') /\ vtranscript (evs r') = map TByte (skipn n l)
  else read_exact n r = (l, Some UnexpectedEof, r') /\ vtranscript (evs r') = [].
Proof.
  intros n r l V F. unfold read_exact. destruct (read_exact_evs n (evs r) (fin r)) as [[g st] es] eqn:E.
  apply read_exact_vtok in E. rewrite V in E. exists (mkReader es (fin r)). split; [exact F|]. cbn [evs].
  destruct (n <=? length l) eqn:L.
  - apply Nat.leb_le in L. rewrite re_vtok_full in E by assumption. injection E as <- <- <-. auto.
  - apply Nat.leb_gt in L. rewrite re_vtok_short in E by assumption. rewrite F in E. injection E as <- <- <-. auto.
Qed.

Lemma block_exact : forall s d, good asm len base bs s d ->
  cl (sy_bytes s) = (if d mod 8 =? 0 then 0 else 1) ->
  exists s',
  if d + 8 * len <=? 8 * length bs then
    exists data, sync_block s = Val (Ok data, s') /\ bytes_ok data /\
      bits data = firstn (8 * len) (skipn d (bits bs)) /\ good asm len base bs s' (d + 8 * len)
  else if d mod 8 =? 0 then
    exists data base', sync_block s = Val (Ok data, s') /\ bytes_ok data /\ length data = len /\
      bits data = skipn d (bits bs) ++ repeat false (8 * len - (8 * length bs - d)) /\
      good asm len base' [] s' 0
  else exists x base', sync_block s = Val (Err (Io UnexpectedEof), s') /\ (x < 256)%N /\ good asm len base' [x] s' (d mod 8).
Proof.
  intros s d G HC. destruct G as [Gp Gm Gl Gi Gv Gf Gn Gc Gb].
  set (off := d / 8) in *. set (i := d mod 8) in *.
  assert (D : d = 8 * off + i) by (apply Nat.div_mod; lia).
  assert (Bi : i < 8) by (apply Nat.mod_upper_bound; lia).
  set (rem := skipn off bs) in *.
  assert (Lr : length rem = length bs - off) by apply skipn_length.
  assert (Hrem : bytes_ok rem) by (apply bytes_ok_skipn; assumption).
  assert (SK : skipn d (bits bs) = skipn i (bits rem)).
  { unfold rem. rewrite bits_skipn, skipn_skipn. f_equal. lia. }
  destruct (divmod_add d len) as [DD DM]. fold off in DD. fold i in DM.
  unfold sync_block. rewrite Gi, Gl. unfold bytes_fill, cl in *.
  destruct (Nat.eq_dec i 0) as [I0|I0].
  - rewrite I0 in *. cbn [Nat.eqb negb] in *. rewrite Nat.add_0_r.
    destruct (b_cache (sy_bytes s)) as [|] eqn:EC; [|discriminate]. cbn [length] in *.
    unfold view in Gv. rewrite EC in Gv. cbn [rev map app] in Gv.
    destruct (read_exact_view len _ _ Gv Gf) as (r' & F' & R).
    destruct (len <=? length rem) eqn:L.
    + apply Nat.leb_le in L. destruct R as [R V']. rewrite R. cbn [obind].
      replace (d + 8 * len <=? 8 * length bs) with true by (symmetry; apply Nat.leb_le; lia).
      rewrite left_shift_val by (right; reflexivity). cbn [obind].
      assert (LF : length (firstn len rem) = len) by (rewrite firstn_length; lia).
      rewrite slice0 by (rewrite left_shift_bytes_length, LF; lia). cbn [obind].
      eexists. eexists. split; [reflexivity|].
      assert (BO : bytes_ok (firstn len (left_shift_bytes (firstn len rem) 0))).
      { apply bytes_ok_firstn, left_shift_bytes_ok, bytes_ok_firstn. assumption. }
      split; [exact BO|]. split.
      { rewrite firstn_all2 by (rewrite left_shift_bytes_length, LF; lia).
        rewrite left_shift_bits by (try apply bytes_ok_firstn; try assumption; lia).
        rewrite SK. cbn [repeat skipn]. rewrite app_nil_r. apply bits_firstn. }
      split; cbn [sy_set sy_patterns sy_masks sy_block_size sy_idx sy_bytes b_reader b_num_read b_cache]; rewrite ?DD, ?DM; try assumption; try reflexivity.
      all: try (unfold view; cbn [b_cache rev map app b_reader]; rewrite V'; unfold rem; rewrite skipn_skipn; f_equal; f_equal; lia).
      all: unfold cl in *; cbn [b_cache length] in *; try lia.
    + apply Nat.leb_gt in L. destruct R as [R V']. rewrite R. cbn [obind].
      replace (d + 8 * len <=? 8 * length bs) with false by (symmetry; apply Nat.leb_gt; lia).
      rewrite left_shift_val by (right; reflexivity). cbn [obind].
      assert (LF : length (padded len rem) = len) by (unfold padded; rewrite app_length, repeat_length; lia).
      assert (PO : bytes_ok (padded len rem)) by (unfold padded; apply bytes_ok_app; split; [assumption|apply bytes_ok_repeat0]).
      rewrite slice0 by (rewrite left_shift_bytes_length, LF; lia). cbn [obind].
      eexists. eexists. exists (b_num_read (sy_bytes s)). split; [reflexivity|].
      rewrite firstn_all2 by (rewrite left_shift_bytes_length, LF; lia).
      split; [apply left_shift_bytes_ok; assumption|]. split; [rewrite left_shift_bytes_length; exact LF|]. split.
      { rewrite left_shift_bits by (assumption || lia). cbn [repeat skipn]. rewrite app_nil_r.
        rewrite SK. unfold padded. rewrite bits_app. cbn [skipn]. f_equal.
        assert (X : forall k, bits (repeat 0%N k) = repeat false (8 * k)).
        { induction k; [reflexivity|]. cbn [repeat]. rewrite bits_cons, IHk. replace (8 * S k) with (8 + 8 * k) by lia. reflexivity. }
        rewrite X. f_equal. lia. }
      split; cbn [sy_set sy_patterns sy_masks sy_block_size sy_idx sy_bytes b_reader b_num_read b_cache]; try assumption; try reflexivity.
      all: try (unfold view; cbn [b_cache rev map app b_reader]; rewrite V'; reflexivity).
      all: unfold cl in *; cbn [b_cache length] in *; cbn; try lia.
  - destruct (Nat.eqb_spec i 0); [contradiction|]. cbn [negb].
    destruct (b_cache (sy_bytes s)) as [|x [|]] eqn:EC; try discriminate. cbn [length] in *. clear HC.
    unfold view in Gv. rewrite EC in Gv. cbn [rev map app] in Gv.
    destruct rem as [|x' rem'] eqn:ER; [discriminate|]. cbn [map] in Gv. injection Gv as <- Gv.
    cbn [length] in Lr.
    destruct (Nat.eq_dec len 0) as [Z|Z].
    + rewrite Z in *. replace (1 <? 0 + 1) with false by reflexivity. cbn [Nat.add].
      replace (d + 8 * 0 <=? 8 * length bs) with true by (symmetry; apply Nat.leb_le; lia).
      cbn [firstn skipn length Nat.sub get nth_error obind]. unfold get. cbn [nth_error obind].
      rewrite left_shift_val by (left; discriminate). cbn [obind].
      rewrite slice0 by lia. cbn [obind firstn].
      eexists. exists []. split; [reflexivity|]. split; [constructor|]. split; [reflexivity|].
      split; cbn [sy_set sy_patterns sy_masks sy_block_size sy_idx sy_bytes b_reader b_num_read b_cache]; rewrite ?DD, ?DM; try assumption; try reflexivity.
      * unfold view. cbn [bytes_push b_cache rev map app b_reader]. rewrite Nat.add_0_r. fold rem. rewrite ER. cbn [map]. f_equal. exact Gv.
      * unfold cl. cbn [bytes_push b_cache b_num_read length app]. lia.
      * lia.
    + replace (1 <? len + 1) with true by (symmetry; apply Nat.ltb_lt; lia).
      replace (len + 1 - 1) with len by lia.
      destruct (read_exact_view len _ _ Gv Gf) as (r' & F' & R).
      destruct (len <=? length rem') eqn:L.
      * apply Nat.leb_le in L. destruct R as [R V']. rewrite R. cbn [obind].
        replace (d + 8 * len <=? 8 * length bs) with true by (symmetry; apply Nat.leb_le; lia).
        assert (LF : length ([x] ++ firstn len rem') = S len) by (cbn; rewrite firstn_length; lia).
        assert (EB : [x] ++ firstn len rem' = firstn (S len) rem) by (rewrite ER; reflexivity).
        rewrite LF. cbn [Nat.sub]. rewrite Nat.sub_0_r.
        rewrite EB.
        assert (GL : get (firstn (S len) rem) len = Val (last (firstn (S len) rem) 0%N)).
        { assert (LE : length (firstn (S len) rem) = S len) by (rewrite <- EB; exact LF).
          rewrite (get_nth _ _ _ 0%N) by lia. f_equal.
          destruct (cache_cases _ (firstn (S len) rem)) as [Q|(v & y & Q)]; [rewrite Q in LE; discriminate|].
          rewrite Q in *. rewrite last_last. rewrite app_length in LE. cbn in LE.
          rewrite app_nth2 by lia. replace (len - length v) with 0 by lia. reflexivity. }
        rewrite GL. cbn [obind].
        rewrite left_shift_val by (left; rewrite ER; discriminate). cbn [obind].
        rewrite slice0 by (rewrite left_shift_bytes_length, <- EB, LF; lia). cbn [obind].
        eexists. eexists. split; [reflexivity|].
        rewrite <- ER in Hrem.
        split; [apply bytes_ok_firstn, left_shift_bytes_ok, bytes_ok_firstn; assumption|]. split.
        { rewrite bits_firstn, left_shift_bits by (try apply bytes_ok_firstn; assumption).
          rewrite SK. rewrite <- ER. rewrite bits_firstn.
          rewrite skipn_app_le by (rewrite firstn_length, bits_length, ER; cbn [length]; lia).
          rewrite firstn_app_le by (rewrite skipn_length, firstn_length, bits_length, ER; cbn [length]; lia).
          rewrite skipn_firstn_comm, firstn_firstn. f_equal. lia. }
        split; cbn [sy_set sy_patterns sy_masks sy_block_size sy_idx sy_bytes b_reader b_num_read b_cache bytes_push app]; rewrite ?DD, ?DM; try assumption; try reflexivity.
        -- unfold view. cbn [bytes_push b_cache rev map app b_reader]. rewrite V'.
           replace (skipn (off + len) bs) with (skipn len rem) by (unfold rem; rewrite skipn_skipn; f_equal; lia).
           rewrite (skipn_last rem len 0%N) by (rewrite ER; cbn [length]; lia). rewrite ER. reflexivity.
        -- unfold cl. cbn [bytes_push app b_cache b_num_read length]. lia.
        -- lia.
      * apply Nat.leb_gt in L. destruct R as [R V']. rewrite R.
        replace (d + 8 * len <=? 8 * length bs) with false by (symmetry; apply Nat.leb_gt; lia).
        eexists. exists x, (b_num_read (sy_bytes s) - 1). split; [reflexivity|].
        split; [apply (Forall_inv Hrem)|].
        assert (H : i mod 8 = i) by (apply Nat.mod_small; assumption).
        assert (H0 : i / 8 = 0) by (apply Nat.div_small; assumption).
        split; cbn [sy_set sy_patterns sy_masks sy_block_size sy_idx sy_bytes b_reader b_num_read b_cache]; rewrite ?H, ?H0; try assumption; try reflexivity.

        -- unfold view. cbn [b_cache rev map app b_reader]. rewrite V'. reflexivity.
        -- unfold cl. cbn [b_cache b_num_read length]. lia.
        -- unfold cl. cbn [b_cache length]. unfold plen. destruct (Nat.eqb_spec i 0); cbn [length]; lia.
Qed.
End Run.
