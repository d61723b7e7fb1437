(* synchronization over a reader that ends up failing for ever *)
From Verif Require Import Base S_Bits M_Reader M_Packet M_Bytes M_Sync S_Packet S_Sync L_Base L_Bits L_Timecode L_Reader L_Sync L_SyncBits L_SyncRun L_SyncIter L_SyncSafe M_Pipeline.
Open Scope nat_scope.

(* a token that does not read as end of file *)
Definition live_token (t : token) : Prop := t <> TEof /\ t <> TErr UnexpectedEof.
Definition vt (b : bytes) : list token := vtranscript (evs (b_reader b)).
Definition live (b : bytes) : Prop := Forall live_token (vt b) /\ exists c, fin (b_reader b) = Failing c.
Definition after (b b' : bytes) : Prop := live b' /\ length (vt b') <= length (vt b).
Lemma after_refl : forall b, live b -> after b b.
Proof. intros b H. split; [exact H|lia]. Qed.
Lemma after_trans : forall a b c, after a b -> after b c -> after a c.
Proof. intros a b c [A1 A2] [B1 B2]. split; [exact B1|lia]. Qed.
Lemma after_push : forall b w, live b -> after b (bytes_push w b).
Proof. intros b w H. split; [exact H|unfold vt, bytes_push; cbn [b_reader]; lia]. Qed.

Lemma live_next : forall b, live b -> exists x b', bytes_next b = (x, b') /\ after b b' /\
  match x with
  | inl _ => True
  | inr k => k <> UnexpectedEof /\ b_cache b' = [] /\ (vt b' = [] \/ length (vt b') < length (vt b))
  end.
Proof.
  intros [r n c] [HL [cd HF]]. unfold vt in HL. cbn [b_reader] in *. unfold bytes_next. cbn [b_cache b_reader b_num_read].
  destruct (vec_pop c) as [[x c2]|] eqn:VP.
  - eexists; eexists. split; [reflexivity|]. split; [|exact I]. split; [split; [exact HL|exists cd; exact HF]|unfold vt; cbn [b_reader]; lia].
  - assert (c = []) by (unfold vec_pop in VP; destruct (rev c) eqn:R; [|discriminate]; apply (f_equal (@rev N)) in R; rewrite rev_involutive in R; exact R). subst c.
    destruct (read1_spec r) as (r1 & F1 & S1). destruct (vtranscript (evs r)) as [|[x|k|] ts] eqn:V; destruct S1 as [R1 V1]; rewrite R1.
    + rewrite HF. eexists; eexists. split; [reflexivity|]. unfold after, live, vt. cbn [b_reader b_cache]. rewrite V1, F1.
      split; [split; [split; [constructor|eauto]|cbn; lia]|]. split; [discriminate|]. auto.
    + eexists; eexists. split; [reflexivity|]. unfold after, live, vt. cbn [b_reader b_cache]. rewrite V1, F1, V. inversion HL; subst.
      split; [split; [split; [assumption|eauto]|cbn; lia]|exact I].
    + eexists; eexists. split; [reflexivity|]. unfold after, live, vt. cbn [b_reader b_cache]. rewrite V1, F1, V. inversion HL as [|? ? [_ H1] H2]; subst.
      split; [split; [split; [assumption|eauto]|cbn; lia]|]. split; [congruence|]. split; [reflexivity|right; cbn; lia].
    + inversion HL as [|? ? [H1 _] H2]. congruence.
Qed.

Lemma live_try : forall pat mask w b bs t, live bs -> try_pattern pat mask w b bs = Val t ->
  match t with
  | TMatch _ bs' | TFail _ bs' => after bs bs'
  | TReadErr k bs' => after bs bs' /\ k <> UnexpectedEof /\ b_cache bs' = [] /\ (vt bs' = [] \/ length (vt bs') < length (vt bs))
  end.
Proof.
  induction pat as [|p pat IH]; intros mask w b bs t HL H; cbn [try_pattern] in H.
  - injection H as <-. apply after_refl. exact HL.
  - destruct (live_next bs HL) as (x & b1 & E & A & X). rewrite E in H. destruct x as [x|k].
    + destruct mask as [|m mask]; [discriminate|]. destruct (negb _).
      * injection H as <-. exact A.
      * specialize (IH mask _ _ b1 t (proj1 A) H). destruct t as [? b2|? b2|k b2]; try (eapply after_trans; eassumption).
        destruct IH as (I1 & I2 & I3 & I4). split; [eapply after_trans; eassumption|]. repeat (split; [assumption|]). destruct A as [_ A]. destruct I4; [left; assumption|right; lia].
    + injection H as <-. split; [exact A|exact X].
Qed.

Definition fails (s s' : syncer) : Prop := b_cache (sy_bytes s') = [] /\ (vt (sy_bytes s') = [] \/ length (vt (sy_bytes s')) < length (vt (sy_bytes s))).
Lemma live_scan : forall fuel s b res s', live (sy_bytes s) -> scan_loop fuel s b = Val (res, s') ->
  after (sy_bytes s) (sy_bytes s') /\ res <> SNone /\ (forall k, res = SErr k -> fails s s').
Proof.
  induction fuel as [|fuel IH]; intros s b res s' HL H; cbn [scan_loop] in H.
  - injection H as <- <-. split; [apply after_refl; exact HL|]. split; discriminate.
  - destruct (get (sy_patterns s) (sy_idx s)) as [pat|]; [|discriminate]. cbn [obind] in H.
    destruct (get (sy_masks s) (sy_idx s)) as [mask|]; [|discriminate]. cbn [obind] in H.
    destruct (try_pattern pat mask [] b (sy_bytes s)) as [t|] eqn:T; [|discriminate]. cbn [obind] in H.
    assert (X := live_try _ _ _ _ _ _ HL T).
    assert (REC : forall bs w i x, after (sy_bytes s) bs -> scan_loop fuel (sy_set s (bytes_push w bs) i) x = Val (res, s') ->
      after (sy_bytes s) (sy_bytes s') /\ res <> SNone /\ (forall k, res = SErr k -> fails s s')).
    { intros bs w i x A R. assert (P := after_trans _ _ _ A (after_push bs w (proj1 A))).
      destruct (IH (sy_set s (bytes_push w bs) i) x res s' (proj1 P) R) as (I1 & I2 & I3). cbn [sy_set sy_bytes] in I1.
      split; [eapply after_trans; eassumption|]. split; [exact I2|]. intros k E. destruct (I3 k E) as [F1 F2]. split; [exact F1|].
      destruct F2 as [F2|F2]; [left; exact F2|right]. cbn [sy_set sy_bytes] in F2. destruct P. lia. }
    destruct t as [b' bs|w bs|k bs].
    + destruct (bytes_offset bs); [|discriminate]. cbn [obind] in H. injection H as <- <-. cbn [sy_set sy_bytes].
      split; [|split; discriminate]. destruct (0 <? sy_idx s); [|exact X]. eapply after_trans; [exact X|apply after_push; apply X].
    + destruct (sy_idx s + 1 =? 8); (eapply REC; [exact X|exact H]).
    + destruct X as (X1 & X2 & X3 & X4). destruct k as [| |c]; [congruence| |]; injection H as <- <-; cbn [sy_set sy_bytes];
        (split; [exact X1|]; split; [discriminate|]; intros k _; split; assumption).
Qed.

Lemma re_vtok_sub : forall n ts f g s ts', re_vtok n ts f = (g, s, ts') -> exists u, ts = u ++ ts'.
Proof.
  induction n as [|n IH]; intros ts f g s ts' H.
  - cbn in H. injection H as _ _ <-. exists []. reflexivity.
  - cbn [re_vtok] in H. induction ts as [|t ts IHt].
    + injection H as _ _ <-. exists []. reflexivity.
    + destruct t as [b|[| |c]|].
      * destruct (re_vtok n ts f) as [[g1 s1] t1] eqn:E. injection H as _ _ <-. destruct (IH _ _ _ _ _ E) as [u ->]. exists (TByte b :: u). reflexivity.
      * injection H as _ _ <-. eexists [_]. reflexivity.
      * destruct (IHt H) as [u ->]. exists (TErr Interrupted :: u). reflexivity.
      * injection H as _ _ <-. eexists [_]. reflexivity.
      * injection H as _ _ <-. eexists [_]. reflexivity.
Qed.
Lemma live_read_exact : forall n r g s r' m c m' c', live (mkBytes r m c) -> read_exact n r = (g, s, r') -> after (mkBytes r m c) (mkBytes r' m' c').
Proof.
  intros n r g s r' m c m' c' [HL [cd HF]] H. unfold read_exact in H. destruct (read_exact_evs n (evs r) (fin r)) as [[g1 s1] e] eqn:E.
  injection H as <- <- <-. apply read_exact_vtok, re_vtok_sub in E. destruct E as [u E].
  unfold after, live, vt in *. cbn [b_reader evs fin] in *. rewrite E in HL |- *. apply Forall_app in HL.
  split; [split; [apply HL|exists cd; exact HF]|rewrite app_length; lia].
Qed.
Lemma live_fill : forall n b buf res b', live b -> bytes_fill n b = (buf, res, b') -> after b b'.
Proof.
  intros n [r m c] buf res b' HL H. unfold bytes_fill in H. cbn [b_cache b_reader b_num_read] in H.
  destruct c as [|x c].
  - destruct (read_exact n r) as [[g s] r'] eqn:R. destruct s as [[| |cd]|]; injection H as _ _ <-; eapply live_read_exact; eassumption.
  - destruct (length (x :: c) <? n).
    + destruct (read_exact (n - length (x :: c)) r) as [[g s] r'] eqn:R. destruct s as [k|]; injection H as _ _ <-; eapply live_read_exact; eassumption.
    + injection H as _ _ <-. apply after_refl in HL. exact HL.
Qed.
Lemma live_block : forall s br s', live (sy_bytes s) -> sync_block s = Val (br, s') -> after (sy_bytes s) (sy_bytes s').
Proof.
  intros s br s' HL H. unfold sync_block in H.
  destruct (bytes_fill _ (sy_bytes s)) as [[buf res] b1] eqn:F. apply live_fill in F; [|exact HL].
  destruct res as [ok|k]; [|injection H as _ <-; exact F].
  destruct (negb (sy_idx s =? 0)).
  - destruct (get buf (length buf - 1)) as [x|]; [|discriminate]. cbn [obind] in H.
    destruct (left_shift buf (sy_idx s)) as [sh|]; [|discriminate]. cbn [obind] in H. destruct (slice sh 0 (sy_block_size s)); [|discriminate].
    cbn [obind] in H. injection H as _ <-. cbn [sy_set sy_bytes]. eapply after_trans; [exact F|apply after_push; apply F].
  - cbn [obind] in H. destruct (left_shift buf (sy_idx s)) as [sh|]; [|discriminate]. cbn [obind] in H. destruct (slice sh 0 (sy_block_size s)); [|discriminate].
    cbn [obind] in H. injection H as _ <-. exact F.
Qed.

Section Fail.
Variables (asm : list N) (len : nat).
Hypothesis Hne : asm <> [].

(* nothing left: every call fails and changes nothing *)
Definition dead (s : biter) : Prop := b_cache (sy_bytes (bi_sync s)) = [] /\ vt (sy_bytes (bi_sync s)) = [].
Lemma dead_next : forall s c, binv asm len s -> dead s -> fin (b_reader (sy_bytes (bi_sync s))) = Failing c ->
  biter_next s = Val (Some (Err (Io (OtherIo c))), s).
Proof.
  intros s c [G _] [D1 D2] HF. unfold vt in D2.
  assert (EV : evs (b_reader (sy_bytes (bi_sync s))) = []).
  { destruct (evs (b_reader (sy_bytes (bi_sync s)))) as [|ev es]; [reflexivity|]. destruct ev as [[|x d]|k]; discriminate. }
  unfold biter_next, scan. destruct (scan_fuel (bi_sync s)) as [|fuel] eqn:SF; [unfold scan_fuel in SF; lia|].
  destruct G as [Gp Gm Gl Gi _ _]. cbn [scan_loop]. rewrite Gp, Gm, get_pat, get_mask by assumption. cbn [obind].
  assert (LP : 1 <= length (pat_i asm (sy_idx (bi_sync s)))).
  { rewrite pat_length by assumption. unfold plen. destruct asm; [congruence|cbn; destruct (_ =? 0); lia]. }
  destruct (pat_i asm (sy_idx (bi_sync s))) as [|p pat]; [cbn in LP; lia|].
  cbn [try_pattern]. unfold bytes_next, vec_pop, read. rewrite D1. cbn [rev Nat.eqb]. rewrite EV, HF. cbn [obind].
  destruct s as [[[[ev fi] nr ca] bsz pp mm ix] la]. cbn in *. subst. reflexivity.
Qed.
Lemma dead_hangs : forall fuel s c, binv asm len s -> dead s -> fin (b_reader (sy_bytes (bi_sync s))) = Failing c ->
  filter_ok_next biter_next fuel s = None.
Proof.
  induction fuel as [|fuel IH]; intros s c G D F; [reflexivity|]. cbn [filter_ok_next]. rewrite (dead_next s c G D F). eapply IH; eassumption.
Qed.

Lemma live_biter_next : forall s, binv asm len s -> live (sy_bytes (bi_sync s)) ->
  exists x s', biter_next s = Val (Some x, s') /\ binv asm len s' /\ live (sy_bytes (bi_sync s')) /\
    (mu s' < mu s \/ dead s' /\ exists e, x = Err e).
Proof.
  intros s G HL. destruct (next_safe asm len Hne s G) as (o & s' & E & G' & F' & D & M).
  assert (G0 := G). destruct G0 as [G0 HLast]. unfold biter_next in E.
  destruct (scan_safe_top asm len Hne _ G0) as (res & s1 & E1 & G1 & C1 & F1 & R). rewrite E1 in E. cbn [obind] in E.
  destruct (live_scan _ _ _ _ _ HL E1) as (A & NN & FA).
  assert (I1 := i_idx _ _ _ G1). assert (I0 := i_idx _ _ _ G0).
  destruct res as [l| |k|]; [|congruence| |contradiction].
  - destruct R as (R1 & R2 & R3 & R4).
    assert (LV : exists last, (if bi_last s =? 0 then Val 0 else usub (l_offset l) (bi_last s)) = Val last).
    { destruct (bi_last s =? 0); [eexists; reflexivity|]. rewrite usub_ok by lia. eexists; reflexivity. }
    destruct LV as [last EL]. rewrite EL in E. cbn [obind] in E.
    destruct (block_safe asm len Hne s1 G1 R4) as (br & s2 & E2 & G2 & C2 & F2 & I2 & V2 & D2). rewrite E2 in E. cbn [obind] in E.
    assert (LB := live_block _ _ _ (proj1 A) E2).
    destruct br as [data|e]; injection E as <- <-; eexists; eexists; (split; [unfold biter_next; rewrite E1; cbn [obind]; rewrite EL; cbn [obind]; rewrite E2; reflexivity|]);
      (split; [exact G'|]); (split; [apply LB|]); left; unfold mu; cbn [bi_sync]; lia.
  - injection E as <- <-. eexists; eexists. split; [unfold biter_next; rewrite E1; reflexivity|]. split; [exact G'|]. cbn [bi_sync] in *.
    split; [apply A|]. destruct (FA k eq_refl) as [X1 [X2|X2]].
    + right. split; [split; assumption|eauto].
    + left. unfold mu. cbn [bi_sync]. unfold vl, view. unfold vt in X2. rewrite X1. cbn [rev map app]. rewrite app_length. lia.
Qed.

(* what can be drawn from the iterator that skips errors *)
Inductive drawn : biter -> list block -> biter -> Prop :=
| drawn_nil : forall s, drawn s [] s
| drawn_cons : forall s fuel b s' bs s'', blocks_next fuel s = Some (Val (Some b, s')) -> drawn s' bs s'' -> drawn s (b :: bs) s''.

Lemma live_draws : forall n s, mu s <= n -> binv asm len s -> live (sy_bytes (bi_sync s)) ->
  exists bs s', drawn s bs s' /\ forall fuel, blocks_next fuel s' = None.
Proof.
  induction n as [n IH] using lt_wf_ind; intros s HM G HL.
  destruct (live_biter_next s G HL) as (x & s1 & E & G1 & HL1 & [M|[D (e & ->)]]).
  - destruct (IH (mu s1) ltac:(lia) s1 (le_n _) G1 HL1) as (bs & s' & DR & HG).
    destruct x as [b|e].
    + exists (b :: bs), s'. split; [|exact HG]. apply drawn_cons with (fuel := 1) (s' := s1); [|exact DR].
      unfold blocks_next. cbn [filter_ok_next]. rewrite E. reflexivity.
    + inversion DR as [|? fuel b s2 bs' ? N1 N2]; subst.
      * exists [], s. split; [constructor|]. intros [|fuel]; [reflexivity|]. unfold blocks_next. cbn [filter_ok_next]. rewrite E. apply HG.
      * exists (b :: bs'), s'. split; [|exact HG]. apply drawn_cons with (fuel := S fuel) (s' := s2); [|exact N2].
        unfold blocks_next. cbn [filter_ok_next]. rewrite E. exact N1.
  - exists [], s. split; [constructor|]. intros [|fuel]; [reflexivity|]. unfold blocks_next. cbn [filter_ok_next]. rewrite E.
    destruct HL1 as [_ [c F]]. eapply dead_hangs; eassumption.
Qed.
End Fail.
