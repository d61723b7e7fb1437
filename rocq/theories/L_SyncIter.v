From Verif Require Import Base S_Bits M_Reader M_Bytes M_Sync S_Packet S_Sync L_Base L_Bits L_Timecode L_Reader L_Sync L_SyncBits L_SyncRun.
Open Scope nat_scope.

Lemma earliest_unique : forall asm B from p q, earliest asm B from p -> earliest asm B from q -> p = q.
Proof.
  intros asm B from p q (P1 & P2 & P3) (Q1 & Q2 & Q3).
  destruct (Nat.lt_trichotomy p q) as [H|[H|H]]; [|exact H|].
  - exfalso. apply (Q3 p); [lia|exact P2].
  - exfalso. apply (P3 q); [lia|exact Q2].
Qed.
Lemma no_more_earliest : forall asm B from p, no_more asm B from -> earliest asm B from p -> False.
Proof. intros asm B from p H (A & C & _). exact (H p A C). Qed.

(* bit strings of 8k bits are the bits of k bytes *)
Lemma of_bits : forall k B, length B = 8 * k -> exists l, bytes_ok l /\ bits l = B.
Proof.
  induction k; intros B H.
  - exists []. split; [constructor|]. destruct B; [reflexivity|discriminate].
  - destruct (IHk (skipn 8 B)) as (l & Hl & E); [rewrite skipn_length; lia|].
    exists (val (firstn 8 B) :: l).
    assert (L8 : length (firstn 8 B) = 8) by (rewrite firstn_length; lia).
    assert (BD := val_bound (firstn 8 B)). rewrite L8 in BD. change (2 ^ N.of_nat 8)%N with 256%N in BD.
    split; [constructor; assumption|].
    rewrite bits_cons, E.
    assert (X : bits8 (val (firstn 8 B)) = firstn 8 B).
    { apply val_inj; [rewrite L8; reflexivity|]. apply val_bits8. exact BD. }
    rewrite X. apply firstn_skipn.
Qed.

(* decidable search *)
Lemma occurs_dec : forall asm B p, occurs asm B p \/ ~ occurs asm B p.
Proof. intros. unfold occurs. destruct (list_eq_dec Bool.bool_dec (firstn (8 * length asm) (skipn p B)) (bits asm)); auto. Qed.
Lemma search : forall asm B k from, asm <> [] -> length B - from <= k ->
  no_more asm B from \/ exists p, earliest asm B from p.
Proof.
  intros asm B. induction k; intros from Hne H.
  - left. intros q Hq X. apply occurs_bound in X; [|exact Hne]. destruct asm; [congruence|]. cbn in X. lia.
  - destruct (occurs_dec asm B from) as [O|O].
    + right. exists from. split; [lia|]. split; [exact O|]. intros; lia.
    + destruct (IHk (from + 1) Hne ltac:(lia)) as [NM|(p & P1 & P2 & P3)].
      * left. intros q Hq. destruct (Nat.eq_dec q from) as [->|]; [exact O|]. apply NM. lia.
      * right. exists p. split; [lia|]. split; [exact P2|]. intros q Hq. destruct (Nat.eq_dec q from) as [->|]; [exact O|]. apply P3. lia.
Qed.

Lemma run_total : forall asm len bs, asm <> [] -> bytes_ok bs ->
  forall k pos last, pos <= 8 * length bs -> 8 * length bs - pos <= k ->
  exists items, sync_run asm len (bits bs) pos last items.
Proof.
  intros asm len bs Hne Hb. assert (1 <= length asm) by (destruct asm; [congruence|cbn; lia]).
  induction k as [k IH] using lt_wf_ind; intros pos last HP HK.
  destruct (search asm (bits bs) (length (bits bs)) pos Hne ltac:(lia)) as [NM|(p & E)].
  - exists []. apply run_end. exact NM.
  - assert (PB : p + 8 * length asm <= length (bits bs)) by (apply occurs_bound; [exact Hne|apply E]).
    assert (LB := bits_length bs).
    set (d := p + 8 * length asm) in *. assert (pos <= p) by apply E.
    destruct (Nat.le_gt_cases (d + 8 * len) (length (bits bs))) as [L|L].
    + destruct (IH (8 * length bs - (d + 8 * len)) ltac:(lia) (d + 8 * len) (l_offset (loc_at d)) ltac:(lia) ltac:(lia)) as [items R].
      destruct (of_bits len (firstn (8 * len) (skipn d (bits bs)))) as (data & Hd & Ed).
      { rewrite firstn_length, skipn_length. lia. }
      eexists. eapply run_block; try eassumption. reflexivity.
    + destruct (Nat.eq_dec (d mod 8) 0) as [Z|Z].
      * destruct (of_bits len (skipn d (bits bs) ++ repeat false (8 * len - (length (bits bs) - d)))) as (data & Hd & Ed).
        { rewrite app_length, skipn_length, repeat_length. lia. }
        assert (length data = len).
        { apply (f_equal (@length bool)) in Ed. rewrite bits_length, app_length, skipn_length, repeat_length in Ed. lia. }
        eexists. eapply run_truncated_aligned; try eassumption. reflexivity.
      * eexists. eapply run_truncated_shifted; try eassumption. reflexivity.
Qed.

Lemma loc_base_0 : forall d, loc_base 0 d = loc_at d.
Proof. intro. unfold loc_base, loc_at. cbn. reflexivity. Qed.

Section Yields.
Variables (asm : list N) (len : nat) (bs : list N).
Hypothesis Hasm : bytes_ok asm.
Hypothesis Hne : asm <> [].
Hypothesis Hbs : bytes_ok bs.

Lemma ended : forall base bs' s pos last, bytes_ok bs' -> good asm len base bs' s pos ->
  no_more asm (bits bs') pos -> yields biter_next (mkBiter s last) [].
Proof.
  intros base bs' s pos last H G NM.
  destruct (scan_at asm len base bs' Hasm Hne H s pos G) as (res & s' & E & R).
  destruct res as [l| | |]; try contradiction.
  - destruct R as (p & EA & _). exfalso. eapply no_more_earliest; eassumption.
  - eapply yields_nil. unfold biter_next. cbn [bi_sync]. rewrite E. reflexivity.
Qed.

Lemma found : forall s pos last p, good asm len 0 bs s pos -> earliest asm (bits bs) pos p ->
  last <= pos / 8 + 1 ->
  exists s', good asm len 0 bs s' (p + 8 * length asm) /\
   cl (sy_bytes s') = (if (p + 8 * length asm) mod 8 =? 0 then 0 else 1) /\
   biter_next (mkBiter s last) =
     let* '(br, sy) := sync_block s' in
     match br with
     | Ok data => Val (Some (Ok (mkBlock (if last =? 0 then 0 else l_offset (loc_at (p + 8 * length asm)) - last)
                     (loc_at (p + 8 * length asm)) data)), mkBiter sy (l_offset (loc_at (p + 8 * length asm))))
     | Err e => Val (Some (Err e), mkBiter sy (l_offset (loc_at (p + 8 * length asm))))
     end.
Proof.
  intros s pos last p G EA HL.
  destruct (scan_at asm len 0 bs Hasm Hne Hbs s pos G) as (res & s' & E & R).
  destruct res as [l| | |]; try contradiction.
  2:{ exfalso. eapply no_more_earliest; eassumption. }
  destruct R as (p' & EA' & -> & G' & C'). assert (p' = p) by (eapply earliest_unique; eassumption). subst p'.
  exists s'. split; [exact G'|]. destruct (divmod_add p (length asm)) as [DD DM].
  split; [rewrite DM; exact C'|].
  unfold biter_next. cbn [bi_sync bi_last]. rewrite E. cbn [obind]. rewrite loc_base_0.
  assert (pos / 8 <= p / 8) by (apply Nat.div_le_mono; [lia|apply EA]).
  destruct (Nat.eqb_spec last 0); [reflexivity|].
  rewrite usub_ok by (unfold loc_at; cbn [l_offset]; lia). reflexivity.
Qed.

Lemma run_yields_sync : forall pos last items, sync_run asm len (bits bs) pos last items ->
  forall s, good asm len 0 bs s pos -> last <= pos / 8 + 1 -> yields biter_next (mkBiter s last) items.
Proof.
  induction 1 as [pos last NM|pos last p d data items EA Hd HL Bd Ed R IH|pos last p d data EA Hd HL HM Bd Ld Ed|pos last p d EA Hd HL HM];
    intros s G HLast.
  - eapply ended; eassumption.
  - destruct (found s pos last p G EA HLast) as (s1 & G1 & C1 & N1). rewrite <- Hd in *.
    destruct (block_exact asm len 0 bs Hasm Hne Hbs s1 d G1 C1) as (s2 & BE).
    rewrite bits_length in HL. replace (d + 8 * len <=? 8 * length bs) with true in BE by (symmetry; apply Nat.leb_le; exact HL).
    destruct BE as (data' & E & Bo & Eb & G2).
    assert (data' = data) by (apply bits_inj; [assumption..|congruence]). subst data'.
    rewrite E in N1. cbn [obind] in N1. eapply yields_cons; [exact N1|].
    apply IH; [exact G2|]. unfold loc_at. cbn [l_offset]. destruct (divmod_add d len) as [-> _]. lia.
  - destruct (found s pos last p G EA HLast) as (s1 & G1 & C1 & N1). rewrite <- Hd in *.
    destruct (block_exact asm len 0 bs Hasm Hne Hbs s1 d G1 C1) as (s2 & BE).
    rewrite bits_length in HL. replace (d + 8 * len <=? 8 * length bs) with false in BE by (symmetry; apply Nat.leb_gt; exact HL).
    rewrite HM in BE. cbn [Nat.eqb] in BE. destruct BE as (data' & base' & E & Bo & L' & Eb & G2).
    assert (data' = data) by (apply bits_inj; [assumption..|rewrite Eb, Ed, bits_length; reflexivity]). subst data'.
    rewrite E in N1. cbn [obind] in N1. eapply yields_cons; [exact N1|].
    eapply ended; [constructor|exact G2|]. intros q _ X. apply occurs_bound in X; [|exact Hne].
    destruct asm; [congruence|]. cbn in X. lia.
  - destruct (found s pos last p G EA HLast) as (s1 & G1 & C1 & N1). rewrite <- Hd in *.
    destruct (block_exact asm len 0 bs Hasm Hne Hbs s1 d G1 C1) as (s2 & BE).
    rewrite bits_length in HL. replace (d + 8 * len <=? 8 * length bs) with false in BE by (symmetry; apply Nat.leb_gt; exact HL).
    destruct (Nat.eqb_spec (d mod 8) 0); [contradiction|]. destruct BE as (x & base' & E & Bx & G2).
    rewrite E in N1. cbn [obind] in N1. eapply yields_cons; [exact N1|].
    eapply ended; [constructor; [exact Bx|constructor]|exact G2|]. intros q Hq X. apply occurs_bound in X; [|exact Hne].
    rewrite bits_length in X. destruct asm; [congruence|]. cbn [length] in X. lia.
Qed.
End Yields.

Lemma good_start : forall asm len r bs, delivers r bs -> good asm len 0 bs (syncer_new r len asm) 0.
Proof.
  intros asm len r bs [V F]. unfold syncer_new. destruct (create_patterns asm) as [pp mm] eqn:E.
  split; cbn [sy_patterns sy_masks sy_block_size sy_idx sy_bytes bytes_new b_reader b_num_read b_cache]; rewrite ?E; try reflexivity; try assumption.
  - unfold cl. cbn. lia.
  - lia.
Qed.

Lemma sync_iff : forall asm len r bs items, bytes_ok asm -> asm <> [] -> bytes_ok bs -> delivers r bs ->
  (yields biter_next (synchronize r asm len) items <-> sync_run asm len (bits bs) 0 0 items).
Proof.
  intros asm len r bs items Ha Hn Hb HD.
  assert (F : forall l, sync_run asm len (bits bs) 0 0 l -> yields biter_next (synchronize r asm len) l).
  { intros l R. apply (run_yields_sync asm len bs Ha Hn Hb 0 0 l R); [apply good_start; exact HD|cbn; lia]. }
  split; [|apply F]. intro Y.
  destruct (run_total asm len bs Hn Hb (8 * length bs) 0 0 ltac:(lia) ltac:(lia)) as [l R].
  rewrite (yields_det _ _ _ _ _ _ Y (F l R)). exact R.
Qed.
