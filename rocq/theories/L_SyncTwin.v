(* synchronization over a reader that fails for ever where another one ends *)
From Verif Require Import Base S_Bits M_Reader M_Packet M_Bytes M_Sync S_Packet S_Sync L_Base L_Bits L_Timecode L_Reader L_Sync L_SyncBits L_SyncRun L_SyncIter L_SyncSafe L_SyncFail M_Live S_Live L_SyncReads S_FrameLive.
Open Scope nat_scope.

Section Twin.
Variable c : N.
Definition tr (r : reader) : reader := mkReader (evs r) (Failing c).
Definition tb (b : bytes) : bytes := mkBytes (tr (b_reader b)) (b_num_read b) (b_cache b).
Definition ts (s : syncer) : syncer := mkSyncer (tb (sy_bytes s)) (sy_block_size s) (sy_patterns s) (sy_masks s) (sy_idx s).
Definition at_end (b : bytes) : Prop := b_cache b = [] /\ evs (b_reader b) = [].

Lemma twin_read : forall n r x r', fin r = AtEof -> read n r = (x, r') ->
  fin r' = AtEof /\ (read n (tr r) = (x, tr r') \/ evs r = [] /\ x = inl [] /\ r' = r /\ n <> 0 /\ read n (tr r) = (inr (OtherIo c), tr r)).
Proof.
  intros n [es f] x r' F H. cbn [fin] in F. subst f. unfold read in *. cbn [evs fin tr] in *. destruct (Nat.eqb_spec n 0) as [Z|Z].
  - injection H as <- <-. split; [reflexivity|left; reflexivity].
  - destruct es as [|[bs|k] es]; injection H as <- <-; (split; [reflexivity|]); [right; auto|left; reflexivity|left; reflexivity].
Qed.
Lemma twin_next : forall b x b', fin (b_reader b) = AtEof -> bytes_next b = (x, b') ->
  fin (b_reader b') = AtEof /\ (bytes_next (tb b) = (x, tb b') \/ x = inr UnexpectedEof /\ at_end b' /\ bytes_next (tb b) = (inr (OtherIo c), tb b')).
Proof.
  intros [r n ca] x b' F H. unfold bytes_next in *. cbn [b_cache b_reader b_num_read tb] in *. destruct (vec_pop ca) as [[y ca2]|] eqn:V.
  - injection H as <- <-. split; [exact F|left; reflexivity].
  - assert (ca = []) by (unfold vec_pop in V; destruct (rev ca) eqn:R; [|discriminate]; apply (f_equal (@rev N)) in R; rewrite rev_involutive in R; exact R). subst ca.
    destruct (read 1 r) as [y r1] eqn:R. destruct (twin_read 1 r y r1 F R) as [F1 [T|(E & -> & -> & _ & T)]]; rewrite T.
    + destruct y as [[|y l]|k]; injection H as <- <-; (split; [exact F1|left; reflexivity]).
    + injection H as <- <-. split; [exact F|]. right. split; [reflexivity|]. split; [split; [reflexivity|exact E]|reflexivity].
Qed.
Lemma twin_try : forall pat mask w b bs t, fin (b_reader bs) = AtEof -> try_pattern pat mask w b bs = Val t ->
  match t with
  | TMatch y bs' => fin (b_reader bs') = AtEof /\ try_pattern pat mask w b (tb bs) = Val (TMatch y (tb bs'))
  | TFail y bs' => fin (b_reader bs') = AtEof /\ try_pattern pat mask w b (tb bs) = Val (TFail y (tb bs'))
  | TReadErr k bs' => fin (b_reader bs') = AtEof /\ (try_pattern pat mask w b (tb bs) = Val (TReadErr k (tb bs')) \/
      k = UnexpectedEof /\ at_end bs' /\ try_pattern pat mask w b (tb bs) = Val (TReadErr (OtherIo c) (tb bs')))
  end.
Proof.
  induction pat as [|p pat IH]; intros mask w b bs t F H; cbn [try_pattern] in *.
  - injection H as <-. auto.
  - destruct (bytes_next bs) as [x b1] eqn:E. destruct (twin_next _ _ _ F E) as [F1 [T|(-> & D & T)]]; rewrite T.
    + destruct x as [x|k]; [|injection H as <-; split; [exact F1|left; reflexivity]]. destruct mask as [|m mask]; [discriminate|]. destruct (negb _).
      * injection H as <-. auto.
      * apply IH; assumption.
    + injection H as <-. auto.
Qed.
Lemma twin_push : forall w b, bytes_push w (tb b) = tb (bytes_push w b).
Proof. reflexivity. Qed.
Lemma twin_scan : forall fuel s b res s', fin (b_reader (sy_bytes s)) = AtEof -> scan_loop fuel s b = Val (res, s') ->
  fin (b_reader (sy_bytes s')) = AtEof /\ (scan_loop fuel (ts s) b = Val (res, ts s') \/
  res = SNone /\ at_end (sy_bytes s') /\ scan_loop fuel (ts s) b = Val (SErr (OtherIo c), ts s')).
Proof.
  induction fuel as [|fuel IH]; intros s b res s' F H; cbn [scan_loop] in *.
  - injection H as <- <-. auto.
  - cbn [sy_patterns sy_masks sy_idx sy_bytes ts].
    destruct (get (sy_patterns s) (sy_idx s)) as [pat|]; [|discriminate]. cbn [obind] in *.
    destruct (get (sy_masks s) (sy_idx s)) as [mask|]; [|discriminate]. cbn [obind] in *.
    destruct (try_pattern pat mask [] b (sy_bytes s)) as [t|] eqn:T; [|discriminate]. cbn [obind] in H.
    assert (X := twin_try _ _ _ _ _ _ F T). destruct t as [y bs|w bs|k bs].
    + destruct X as [F1 X]. rewrite X. cbn [obind]. unfold bytes_offset in *. cbn [b_num_read b_cache tb].
      destruct (usub (b_num_read bs) (length (b_cache bs))) as [off|]; [|discriminate]. cbn [obind] in *. injection H as <- <-. cbn [sy_set sy_bytes].
      split; [destruct (0 <? sy_idx s); exact F1|left]. destruct (0 <? sy_idx s); reflexivity.
    + destruct X as [F1 X]. rewrite X. cbn [obind]. cbv zeta in *. destruct (sy_idx s + 1 =? 8); rewrite twin_push.
      * destruct (IH (sy_set s (bytes_push (removelast (rev w)) bs) 0) (last w 0%N) res s' F1 H) as [I1 I2]. split; [exact I1|exact I2].
      * destruct (IH (sy_set s (bytes_push (rev w) bs) (sy_idx s + 1)) (last w 0%N) res s' F1 H) as [I1 I2]. split; [exact I1|exact I2].
    + destruct X as [F1 [X|(-> & D & X)]]; rewrite X; cbn [obind].
      * destruct k; injection H as <- <-; (split; [exact F1|left; reflexivity]).
      * injection H as <- <-. split; [exact F1|]. right. split; [reflexivity|]. split; [exact D|reflexivity].
Qed.
Lemma twin_scan_top : forall s res s', fin (b_reader (sy_bytes s)) = AtEof -> scan s = Val (res, s') ->
  fin (b_reader (sy_bytes s')) = AtEof /\ (scan (ts s) = Val (res, ts s') \/
  res = SNone /\ at_end (sy_bytes s') /\ scan (ts s) = Val (SErr (OtherIo c), ts s')).
Proof. intros s res s' F H. apply (twin_scan (scan_fuel s) s 0%N res s' F H). Qed.

Lemma twin_read_exact : forall n r l, vtranscript (evs r) = map TByte l ->
  if n <=? length l then forall g st r', read_exact n r = (g, st, r') -> read_exact n (tr r) = (g, st, tr r')
  else exists r', evs r' = [] /\ read_exact n (tr r) = (l, Some (OtherIo c), tr r').
Proof.
  intros n r l V. unfold read_exact. cbn [evs fin tr].
  destruct (read_exact_evs n (evs r) (Failing c)) as [[g1 s1] e1] eqn:E1. assert (T1 := read_exact_vtok _ _ _ _ _ _ E1). rewrite V in T1.
  destruct (n <=? length l) eqn:L.
  - apply Nat.leb_le in L. intros g st r' H. destruct (read_exact_evs n (evs r) (fin r)) as [[g2 s2] e2] eqn:E2. injection H as <- <- <-.
    cbn [evs]. assert (X : forall es n f f' l g st e', vtranscript es = map TByte l -> n <= length l -> read_exact_evs n es f = (g, st, e') -> read_exact_evs n es f' = (g, st, e')).
    { clear. induction es as [|ev es IH]; intros n f f' l g st e' V L H.
      - destruct l; [|discriminate]. cbn [length] in L. assert (n = 0) by lia. subst n. cbn [read_exact_evs] in *. exact H.
      - destruct n as [|n]; [destruct ev; exact H|]. destruct ev as [[|b d]|k]; [destruct l; discriminate| |destruct l; discriminate].
        cbn [read_exact_evs] in *. destruct (length (b :: d) <? S n) eqn:LT; [|exact H]. apply Nat.ltb_lt in LT.
        change (vtranscript (EvData (b :: d) :: es)) with (map TByte (b :: d) ++ vtranscript es) in V.
        assert (V2 : vtranscript es = map TByte (skipn (length (b :: d)) l)).
        { rewrite <- skipn_map, <- V. replace (length (b :: d)) with (length (map TByte (b :: d))) by apply map_length. rewrite skipn_app_exact. reflexivity. }
        destruct (read_exact_evs (S n - length (b :: d)) es f) as [[g1 s1] e1] eqn:E.
        rewrite (IH (S n - length (b :: d)) f f' (skipn (length (b :: d)) l) _ _ _ V2 ltac:(rewrite skipn_length; lia) E). exact H. }
    rewrite (X _ _ _ (Failing c) l _ _ _ V L E2) in E1. injection E1 as <- <- <-. reflexivity.
  - apply Nat.leb_gt in L. rewrite (re_vtok_short [0%N] ltac:(constructor; [reflexivity|constructor]) ltac:(discriminate)) in T1 by exact L. injection T1 as -> -> T1.
    exists (mkReader e1 (Failing c)). split; [|reflexivity]. cbn [evs]. destruct e1 as [|[[|b d]|k] e1]; [reflexivity|discriminate..].
Qed.
Lemma twin_block : forall s l, vtranscript (evs (b_reader (sy_bytes s))) = map TByte l ->
  let n := sy_block_size s + (if negb (sy_idx s =? 0) then 1 else 0) in
  cl (sy_bytes s) <= (if sy_idx s =? 0 then 0 else 1) ->
  if n <=? cl (sy_bytes s) + length l then forall br s', sync_block s = Val (br, s') -> sync_block (ts s) = Val (br, ts s')
  else exists s', sync_block (ts s) = Val (Err (Io (OtherIo c)), ts s') /\ evs (b_reader (sy_bytes s')) = [] /\
    s' = sy_set s (mkBytes (b_reader (sy_bytes s')) (b_num_read (sy_bytes s)) (b_cache (sy_bytes s))) (sy_idx s).
Proof.
  intros s l V n CL. unfold sync_block. cbv zeta. cbn [ts sy_block_size sy_idx sy_bytes]. fold n. unfold bytes_fill, cl in *. cbn [b_cache b_reader b_num_read tb].
  destruct (b_cache (sy_bytes s)) as [|x ca] eqn:EC.
  - cbn [length Nat.add]. assert (T := twin_read_exact n _ _ V). destruct (n <=? length l) eqn:L.
    + intros br s' H. destruct (read_exact n (b_reader (sy_bytes s))) as [[g st] r'] eqn:R. rewrite (T _ _ _ eq_refl).
      destruct st as [[| |cc]|].
      * destruct (negb (sy_idx s =? 0)).
        -- destruct (get _ _) as [y|]; [|discriminate]. cbn [obind] in *. destruct (left_shift _ _) as [sh|]; [|discriminate]. cbn [obind] in *. destruct (slice sh 0 _) as [o|]; [|discriminate]. cbn [obind] in *. injection H as <- <-. reflexivity.
        -- cbn [obind] in *. destruct (left_shift _ _) as [sh|]; [|discriminate]. cbn [obind] in *. destruct (slice sh 0 _) as [o|]; [|discriminate]. cbn [obind] in *. injection H as <- <-. reflexivity.
      * injection H as <- <-. reflexivity.
      * injection H as <- <-. reflexivity.
      * destruct (negb (sy_idx s =? 0)).
        -- destruct (get _ _) as [y|]; [|discriminate]. cbn [obind] in *. destruct (left_shift _ _) as [sh|]; [|discriminate]. cbn [obind] in *. destruct (slice sh 0 _) as [o|]; [|discriminate]. cbn [obind] in *. injection H as <- <-. reflexivity.
        -- cbn [obind] in *. destruct (left_shift _ _) as [sh|]; [|discriminate]. cbn [obind] in *. destruct (slice sh 0 _) as [o|]; [|discriminate]. cbn [obind] in *. injection H as <- <-. reflexivity.
    + destruct T as (r' & E & T). rewrite T. exists (sy_set s (mkBytes r' (b_num_read (sy_bytes s)) []) (sy_idx s)). split; [reflexivity|]. split; [exact E|reflexivity].
  - assert (LC : length (x :: ca) = 1 /\ sy_idx s <> 0) by (destruct (Nat.eqb_spec (sy_idx s) 0); cbn [length] in *; [lia|split; [lia|assumption]]).
    destruct LC as [LC IX]. apply Nat.eqb_neq in IX. rewrite IX in *. cbn [negb] in *. rewrite LC.
    destruct (1 <? n) eqn:L1.
    + apply Nat.ltb_lt in L1. assert (T := twin_read_exact (n - 1) _ _ V).
      destruct (n <=? 1 + length l) eqn:L.
      * apply Nat.leb_le in L. replace (n - 1 <=? length l) with true in T by (symmetry; apply Nat.leb_le; lia). intros br s' H.
        destruct (read_exact (n - 1) (b_reader (sy_bytes s))) as [[g st] r'] eqn:R. rewrite (T _ _ _ eq_refl). destruct st as [k|].
        -- injection H as <- <-. reflexivity.
        -- destruct (get _ _) as [y|]; [|discriminate]. cbn [obind] in *. destruct (left_shift _ _) as [sh|]; [|discriminate]. cbn [obind] in *. destruct (slice sh 0 _) as [o|]; [|discriminate]. cbn [obind] in *. injection H as <- <-. reflexivity.
      * apply Nat.leb_gt in L. replace (n - 1 <=? length l) with false in T by (symmetry; apply Nat.leb_gt; lia). destruct T as (r' & E & T). rewrite T.
        exists (sy_set s (mkBytes r' (b_num_read (sy_bytes s)) (x :: ca)) (sy_idx s)). split; [reflexivity|]. split; [exact E|reflexivity].
    + apply Nat.ltb_ge in L1. replace (n <=? 1 + length l) with true by (symmetry; apply Nat.leb_le; lia). intros br s' H.
      destruct (get _ _) as [y|]; [|discriminate]. cbn [obind] in *. destruct (left_shift _ _) as [sh|]; [|discriminate]. cbn [obind] in *. destruct (slice sh 0 _) as [o|]; [|discriminate]. cbn [obind] in *. injection H as <- <-. reflexivity.
Qed.

Variables (asm : list N) (len : nat).
Hypothesis Hasm : bytes_ok asm.
Hypothesis Hne : asm <> [].

Lemma good_live : forall base bs s pos, good asm len base bs s pos ->
  (exists l, vtranscript (evs (b_reader (sy_bytes s))) = map TByte l /\ cl (sy_bytes s) + length l = length bs - pos / 8) /\ live (tb (sy_bytes s)).
Proof.
  intros base bs s pos G. assert (Gv := g_view _ _ _ _ _ _ G). unfold view in Gv.
  assert (X : exists l, vtranscript (evs (b_reader (sy_bytes s))) = map TByte l /\ cl (sy_bytes s) + length l = length bs - pos / 8).
  { assert (L := f_equal (@length token) Gv). rewrite app_length, !map_length, rev_length, skipn_length in L.
    exists (skipn (length (b_cache (sy_bytes s))) (skipn (pos / 8) bs)). split.
    - apply (f_equal (skipn (length (b_cache (sy_bytes s))))) in Gv.
      replace (length (b_cache (sy_bytes s))) with (length (map TByte (rev (b_cache (sy_bytes s))))) in Gv at 1 by (rewrite map_length, rev_length; reflexivity).
      rewrite skipn_app_exact, skipn_map in Gv. exact Gv.
    - unfold cl. rewrite !skipn_length. lia. }
  split; [exact X|]. destruct X as (l & V & _). split; [|exists c; reflexivity]. unfold vt, tb, tr. cbn [b_reader evs]. rewrite V.
  apply Forall_forall. intros t I. apply in_map_iff in I. destruct I as (b & <- & _). split; discriminate.
Qed.
(* nothing more to be found *)
Lemma ended_fails : forall base bs' s pos last, bytes_ok bs' -> good asm len base bs' s pos -> no_more asm (bits bs') pos ->
  binv asm len (mkBiter (ts s) last) -> fails_forever biter_next (mkBiter (ts s) last).
Proof.
  intros base bs' s pos last H G NM BI.
  destruct (scan_at asm len base bs' Hasm Hne H s pos G) as (res & s' & E & R). destruct (good_live _ _ _ _ G) as [_ LV].
  destruct res as [l| | |]; try contradiction; [destruct R as (p & EA & _); exfalso; eapply no_more_earliest; eassumption|].
  destruct (twin_scan_top _ _ _ (g_fin _ _ _ _ _ _ G) E) as [F1 [T|(_ & [D1 D2] & T)]].
  { destruct (live_scan _ (ts s) _ _ _ LV T) as (_ & NN & _). congruence. }
  assert (N : biter_next (mkBiter (ts s) last) = Val (Some (Err (Io (OtherIo c))), mkBiter (ts s') last)) by (unfold biter_next; cbn [bi_sync bi_last]; rewrite T; reflexivity).
  eapply fails_again; [exact N|]. destruct (next_safe asm len Hne _ BI) as (o & s2 & E2 & B2 & _). rewrite N in E2. injection E2 as <- <-.
  eapply (dead_forever asm len Hne _ c B2); [|reflexivity]. split; cbn [bi_sync ts sy_bytes tb b_cache b_reader]; [exact D1|]. unfold vt, tb, tr, sy_set; cbn [b_reader sy_bytes bi_sync ts evs tb tr]; unfold vt, tb, tr; cbn [b_reader sy_bytes bi_sync evs]; rewrite D2. reflexivity.
Qed.
Lemma twin_found : forall s last p bs pos, bytes_ok bs -> good asm len 0 bs s pos -> earliest asm (bits bs) pos p -> last <= pos / 8 + 1 ->
  let d := p + 8 * length asm in
  exists s1, good asm len 0 bs s1 d /\ cl (sy_bytes s1) = (if d mod 8 =? 0 then 0 else 1) /\
   biter_next (mkBiter (ts s) last) =
     let* '(br, sy) := sync_block (ts s1) in
     match br with
     | Ok data => Val (Some (Ok (mkBlock (if last =? 0 then 0 else l_offset (loc_at d) - last) (loc_at d) data)), mkBiter sy (l_offset (loc_at d)))
     | Err e => Val (Some (Err e), mkBiter sy (l_offset (loc_at d)))
     end.
Proof.
  intros s last p bs pos Hb G EA HL d.
  destruct (scan_at asm len 0 bs Hasm Hne Hb s pos G) as (res & s' & E & R).
  destruct res as [l| | |]; try contradiction; [|exfalso; eapply no_more_earliest; eassumption].
  destruct R as (p' & EA' & -> & G' & C'). assert (p' = p) by (eapply earliest_unique; eassumption). subst p'. fold d in G'.
  exists s'. split; [exact G'|]. destruct (divmod_add p (length asm)) as [DD DM]. fold d in DD, DM. split; [rewrite DM; exact C'|].
  destruct (twin_scan_top _ _ _ (g_fin _ _ _ _ _ _ G) E) as [F1 [T|(C & _)]]; [|discriminate].
  unfold biter_next. cbn [bi_sync bi_last]. rewrite T. cbn [obind]. fold d. rewrite loc_base_0.
  assert (pos / 8 <= p / 8) by (apply Nat.div_le_mono; [lia|apply EA]).
  destruct (Nat.eqb_spec last 0); [reflexivity|].
  rewrite usub_ok by (unfold loc_at; cbn [l_offset]; lia). reflexivity.
Qed.

Lemma run_fails : forall bs, bytes_ok bs -> forall pos last blocks, whole_blocks asm len (bits bs) pos last blocks ->
  forall s, good asm len 0 bs s pos -> last <= pos / 8 + 1 -> binv asm len (mkBiter (ts s) last) ->
  reads biter_next (mkBiter (ts s) last) (map Ok blocks) Forever.
Proof.
  intros bs Hb pos last blocks R. induction R as [pos last NM|pos last p EA LB|pos last p d data blocks EA Hd HL Bd Ed R IH]; intros s G HLast BI; cbn [map].
  - apply reads_fail. eapply ended_fails; eassumption.
  - apply reads_fail. destruct (twin_found s last p bs pos Hb G EA HLast) as (s1 & G1 & C1 & N1). set (d := p + 8 * length asm) in *.
    destruct (good_live _ _ _ _ G1) as [(l & V & LL) _]. assert (GI := g_idx _ _ _ _ _ _ G1). assert (GL := g_len _ _ _ _ _ _ G1).
    assert (TB := twin_block s1 l V). cbv zeta in TB. rewrite GI, GL in TB.
    assert (D := Nat.div_mod d 8 ltac:(lia)). assert (B8 := Nat.mod_upper_bound d 8 ltac:(lia)). rewrite bits_length in LB. assert (GP := g_pos _ _ _ _ _ _ G1).
    specialize (TB ltac:(rewrite C1; lia)).
    replace (_ <=? _) with false in TB by (symmetry; apply Nat.leb_gt; rewrite LL; destruct (Nat.eqb_spec (d mod 8) 0); cbn [negb]; lia).
    destruct TB as (s' & TB & EV & ES). rewrite TB in N1. cbn [obind] in N1. eapply fails_again; [exact N1|].
    destruct (next_safe asm len Hne _ BI) as (o & s2 & E2 & B2 & _). rewrite N1 in E2. injection E2 as <- <-.
    destruct (Nat.eqb_spec (d mod 8) 0) as [Z|Z].
    + eapply (dead_forever asm len Hne _ c B2); [|reflexivity]. rewrite ES. split; cbn [bi_sync ts sy_set sy_bytes tb b_cache b_reader].
      * unfold cl in C1. destruct (b_cache (sy_bytes s1)); [reflexivity|discriminate].
      * unfold vt, tb, tr, sy_set; cbn [b_reader sy_bytes bi_sync ts evs tb tr]; unfold vt, tb, tr; cbn [b_reader sy_bytes bi_sync evs]; rewrite EV. reflexivity.
    + destruct (block_exact asm len 0 bs Hasm Hne Hb s1 d G1) as (s3 & BE); [destruct (Nat.eqb_spec (d mod 8) 0); [contradiction|exact C1]|].
      replace (d + 8 * len <=? 8 * length bs) with false in BE by (symmetry; apply Nat.leb_gt; lia).
      destruct (Nat.eqb_spec (d mod 8) 0); [contradiction|]. destruct BE as (x & base' & E & Bx & G2).
      (* the state of the twin is that of s3 *)
      assert (ET : ts s' = ts s3).
      { unfold sync_block in E. rewrite GI, GL in E. cbv zeta in E. apply Nat.eqb_neq in Z. rewrite Z in E. cbn [negb] in E. unfold bytes_fill in E.
        unfold cl in *. destruct (b_cache (sy_bytes s1)) as [|y [|? ?]] eqn:EC; try discriminate. cbn [length] in *.
        destruct (1 <? len + 1) eqn:L1; [|apply Nat.ltb_ge in L1; assert (len = 0) by lia; lia].
        destruct (read_exact_view asm Hasm Hne (len + 1 - 1) _ _ V (g_fin _ _ _ _ _ _ G1)) as (r' & F' & RE).
        replace (len + 1 - 1 <=? length l) with false in RE by (symmetry; apply Nat.leb_gt; apply Nat.eqb_neq in Z; lia).
        destruct RE as [RE VE]. rewrite RE in E. injection E as <-. rewrite ES. unfold ts, tb, tr, sy_set. cbn. rewrite EV.
        destruct (evs r') as [|[[|? ?]|?] ?]; [|discriminate..]. rewrite ?EC, ?GI, ?GL. reflexivity. }
      rewrite ET in *. eapply ended_fails; [constructor; [exact Bx|constructor]|exact G2| |exact B2].
      intros q Hq X. apply occurs_bound in X; [|exact Hne]. rewrite bits_length in X. destruct asm; [congruence|]. cbn [length] in X. lia.
  - destruct (twin_found s last p bs pos Hb G EA HLast) as (s1 & G1 & C1 & N1). rewrite <- Hd in *.
    destruct (good_live _ _ _ _ G1) as [(l & V & LL) _]. assert (GI := g_idx _ _ _ _ _ _ G1). assert (GL := g_len _ _ _ _ _ _ G1).
    assert (TB := twin_block s1 l V). cbv zeta in TB. rewrite GI, GL in TB.
    assert (D := Nat.div_mod d 8 ltac:(lia)). assert (B8 := Nat.mod_upper_bound d 8 ltac:(lia)). rewrite bits_length in HL. assert (GP := g_pos _ _ _ _ _ _ G1).
    specialize (TB ltac:(rewrite C1; lia)).
    replace (_ <=? _) with true in TB by (symmetry; apply Nat.leb_le; rewrite LL; destruct (Nat.eqb_spec (d mod 8) 0); cbn [negb]; lia).
    destruct (block_exact asm len 0 bs Hasm Hne Hb s1 d G1 C1) as (s2 & BE).
    replace (d + 8 * len <=? 8 * length bs) with true in BE by (symmetry; apply Nat.leb_le; exact HL).
    destruct BE as (data' & E & Bo & Eb & G2).
    assert (data' = data) by (apply bits_inj; [assumption..|congruence]). subst data'.
    rewrite (TB _ _ E) in N1. cbn [obind] in N1. eapply reads_item; [exact N1|].
    destruct (next_safe asm len Hne _ BI) as (o & s3 & E2 & B2 & _). rewrite N1 in E2. injection E2 as <- <-.
    apply IH; [exact G2| |exact B2]. unfold loc_at. cbn [l_offset]. destruct (divmod_add d len) as [-> _]. lia.
Qed.
End Twin.

Lemma whole_total : forall asm len bs, asm <> [] -> bytes_ok bs -> forall k pos last, pos <= 8 * length bs -> 8 * length bs - pos <= k ->
  exists blocks, whole_blocks asm len (bits bs) pos last blocks.
Proof.
  intros asm len bs Hne Hb. assert (1 <= length asm) by (destruct asm; [congruence|cbn; lia]).
  induction k as [k IH] using lt_wf_ind; intros pos last HP HK.
  destruct (search asm (bits bs) (length (bits bs)) pos Hne ltac:(lia)) as [NM|(p & E)].
  - exists []. apply whole_end. exact NM.
  - assert (PB : p + 8 * length asm <= length (bits bs)) by (apply occurs_bound; [exact Hne|apply E]).
    assert (LB := bits_length bs). set (d := p + 8 * length asm) in *. assert (pos <= p) by apply E.
    destruct (Nat.le_gt_cases (d + 8 * len) (length (bits bs))) as [L|L].
    + destruct (IH (8 * length bs - (d + 8 * len)) ltac:(lia) (d + 8 * len) (l_offset (loc_at d)) ltac:(lia) ltac:(lia)) as [blocks R].
      destruct (of_bits len (firstn (8 * len) (skipn d (bits bs)))) as (data & Hd & Ed).
      { rewrite firstn_length, skipn_length. lia. }
      eexists. eapply whole_block; try eassumption. reflexivity.
    + exists []. eapply whole_short; eassumption.
Qed.
Lemma sync_fails : forall asm len r bs c, bytes_ok asm -> asm <> [] -> bytes_ok bs -> vtranscript (evs r) = map TByte bs -> fin r = Failing c ->
  exists blocks, whole_blocks asm len (bits bs) 0 0 blocks /\ reads biter_next (synchronize r asm len) (map Ok blocks) Forever.
Proof.
  intros asm len r bs c Ha Hn Hb V F. destruct (whole_total asm len bs Hn Hb _ 0 0 ltac:(lia) (le_n _)) as [blocks W]. exists blocks. split; [exact W|].
  assert (G : good asm len 0 bs (syncer_new (mkReader (evs r) AtEof) len asm) 0) by (apply good_start; split; [exact V|reflexivity]).
  assert (ES : synchronize r asm len = mkBiter (ts c (syncer_new (mkReader (evs r) AtEof) len asm)) 0).
  { unfold synchronize, syncer_new. destruct (create_patterns asm). unfold ts, tb, tr. cbn. destruct r as [es f]. cbn in *. subst f. reflexivity. }
  rewrite ES. apply (run_fails c asm len Ha Hn bs Hb 0 0 blocks W _ G); [lia|]. rewrite <- ES. apply binv_start. exact Hn.
Qed.
