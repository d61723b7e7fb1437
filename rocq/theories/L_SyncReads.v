(* synchronization over any reader: it ends, or it fails for ever *)
From Verif Require Import Base S_Bits M_Reader M_Packet M_Bytes M_Sync S_Packet S_Sync L_Base L_Bits L_Timecode L_Reader L_Sync L_SyncBits L_SyncRun L_SyncIter L_SyncSafe L_SyncFail M_Live S_Live.
Open Scope nat_scope.

Definition failing (b : bytes) : Prop := exists c, fin (b_reader b) = Failing c.
Definition onward (b b' : bytes) : Prop := failing b' /\ length (vt b') <= length (vt b).
Lemma onward_refl : forall b, failing b -> onward b b.
Proof. intros b H. split; [exact H|lia]. Qed.
Lemma onward_trans : forall a b c, onward a b -> onward b c -> onward a c.
Proof. intros a b c [A1 A2] [B1 B2]. split; [exact B1|lia]. Qed.
Lemma onward_push : forall b w, failing b -> onward b (bytes_push w b).
Proof. intros b w H. split; [exact H|unfold vt, bytes_push; cbn [b_reader]; lia]. Qed.
(* a failed read *)
Definition spent (b b' : bytes) : Prop := b_cache b' = [] /\ (vt b' = [] \/ length (vt b') < length (vt b)).

Lemma onward_next : forall b, failing b -> exists x b', bytes_next b = (x, b') /\ onward b b' /\
  match x with inl _ => True | inr k => spent b b' end.
Proof.
  intros [r n c] [cd HF]. cbn [b_reader] in *. unfold bytes_next. cbn [b_cache b_reader b_num_read].
  destruct (vec_pop c) as [[x c2]|] eqn:VP.
  - eexists; eexists. split; [reflexivity|]. split; [|exact I]. split; [exists cd; exact HF|unfold vt; cbn [b_reader]; lia].
  - assert (c = []) by (unfold vec_pop in VP; destruct (rev c) eqn:R; [|discriminate]; apply (f_equal (@rev N)) in R; rewrite rev_involutive in R; exact R). subst c.
    destruct (read1_spec r) as (r1 & F1 & S1). destruct (vtranscript (evs r)) as [|[x|k|] ts] eqn:V; destruct S1 as [R1 V1]; rewrite R1.
    + rewrite HF. eexists; eexists. split; [reflexivity|]. unfold onward, failing, spent, vt. cbn [b_reader b_cache]. rewrite V1, F1.
      split; [split; [eauto|cbn; lia]|]. auto.
    + eexists; eexists. split; [reflexivity|]. unfold onward, failing, spent, vt. cbn [b_reader b_cache]. rewrite V1, F1, V.
      split; [split; [eauto|cbn; lia]|exact I].
    + eexists; eexists. split; [reflexivity|]. unfold onward, failing, spent, vt. cbn [b_reader b_cache]. rewrite V1, F1, V.
      split; [split; [eauto|cbn; lia]|]. split; [reflexivity|right; cbn; lia].
    + eexists; eexists. split; [reflexivity|]. unfold onward, failing, spent, vt. cbn [b_reader b_cache]. rewrite V1, F1, V.
      split; [split; [eauto|cbn; lia]|]. split; [reflexivity|right; cbn; lia].
Qed.

Lemma onward_try : forall pat mask w b bs t, failing bs -> try_pattern pat mask w b bs = Val t ->
  match t with
  | TMatch _ bs' | TFail _ bs' => onward bs bs'
  | TReadErr k bs' => onward bs bs' /\ spent bs bs'
  end.
Proof.
  induction pat as [|p pat IH]; intros mask w b bs t HL H; cbn [try_pattern] in H.
  - injection H as <-. apply onward_refl. exact HL.
  - destruct (onward_next bs HL) as (x & b1 & E & A & X). rewrite E in H. destruct x as [x|k].
    + destruct mask as [|m mask]; [discriminate|]. destruct (negb _).
      * injection H as <-. exact A.
      * specialize (IH mask _ _ b1 t (proj1 A) H). destruct t as [? b2|? b2|k b2]; try (eapply onward_trans; eassumption).
        destruct IH as (I1 & I2 & I3). split; [eapply onward_trans; eassumption|]. split; [exact I2|]. destruct A as [_ A]. destruct I3; [left; assumption|right; lia].
    + injection H as <-. split; [exact A|exact X].
Qed.

Lemma onward_scan : forall fuel s b res s', failing (sy_bytes s) -> scan_loop fuel s b = Val (res, s') ->
  onward (sy_bytes s) (sy_bytes s') /\ (forall k, res = SErr k -> spent (sy_bytes s) (sy_bytes s')).
Proof.
  induction fuel as [|fuel IH]; intros s b res s' HL H; cbn [scan_loop] in H.
  - injection H as <- <-. split; [apply onward_refl; exact HL|]. discriminate.
  - destruct (get (sy_patterns s) (sy_idx s)) as [pat|]; [|discriminate]. cbn [obind] in H.
    destruct (get (sy_masks s) (sy_idx s)) as [mask|]; [|discriminate]. cbn [obind] in H.
    destruct (try_pattern pat mask [] b (sy_bytes s)) as [t|] eqn:T; [|discriminate]. cbn [obind] in H.
    assert (X := onward_try _ _ _ _ _ _ HL T).
    assert (REC : forall bs w i x, onward (sy_bytes s) bs -> scan_loop fuel (sy_set s (bytes_push w bs) i) x = Val (res, s') ->
      onward (sy_bytes s) (sy_bytes s') /\ (forall k, res = SErr k -> spent (sy_bytes s) (sy_bytes s'))).
    { intros bs w i x A R. assert (P := onward_trans _ _ _ A (onward_push bs w (proj1 A))).
      destruct (IH (sy_set s (bytes_push w bs) i) x res s' (proj1 P) R) as (I1 & I3). cbn [sy_set sy_bytes] in I1.
      split; [eapply onward_trans; eassumption|]. intros k E. destruct (I3 k E) as [F1 F2]. split; [exact F1|].
      destruct F2 as [F2|F2]; [left; exact F2|right]. cbn [sy_set sy_bytes] in F2. destruct P. lia. }
    destruct t as [b' bs|w bs|k bs].
    + destruct (bytes_offset bs); [|discriminate]. cbn [obind] in H. injection H as <- <-. cbn [sy_set sy_bytes].
      split; [|discriminate]. destruct (0 <? sy_idx s); [|exact X]. eapply onward_trans; [exact X|apply onward_push; apply X].
    + destruct (sy_idx s + 1 =? 8); (eapply REC; [exact X|exact H]).
    + destruct X as (X1 & X2). destruct k as [| |c]; injection H as <- <-; cbn [sy_set sy_bytes]; (split; [exact X1|]); try discriminate; intros k _; exact X2.
Qed.

Section Reads.
Variables (asm : list N) (len : nat).
Hypothesis Hne : asm <> [].

Lemma failing_next : forall s c, binv asm len s -> fin (b_reader (sy_bytes (bi_sync s))) = Failing c ->
  exists o s', biter_next s = Val (o, s') /\ binv asm len s' /\ fin (b_reader (sy_bytes (bi_sync s'))) = Failing c /\
    (o = None \/ mu s' < mu s \/ dead s' /\ exists e, o = Some (Err e)).
Proof.
  intros s c G HF. destruct (next_safe asm len Hne s G) as (o & s' & E & G' & F' & D & M). unfold fins in F'. rewrite HF in F'.
  exists o, s'. split; [exact E|]. split; [exact G'|]. split; [exact F'|].
  assert (G0 := G). destruct G0 as [G0 HLast]. unfold biter_next in E.
  destruct (scan_safe_top asm len Hne _ G0) as (res & s1 & E1 & G1 & C1 & F1 & R). rewrite E1 in E. cbn [obind] in E.
  destruct (onward_scan _ _ _ _ _ (ex_intro _ c HF) E1) as (A & FA).
  assert (I1 := i_idx _ _ _ G1). assert (I0 := i_idx _ _ _ G0).
  destruct res as [l| |k|]; [| | |contradiction].
  - right; left. destruct R as (R1 & R2 & R3 & R4).
    assert (LV : exists last, (if bi_last s =? 0 then Val 0 else usub (l_offset l) (bi_last s)) = Val last).
    { destruct (bi_last s =? 0); [eexists; reflexivity|]. rewrite usub_ok by lia. eexists; reflexivity. }
    destruct LV as [last EL]. rewrite EL in E. cbn [obind] in E.
    destruct (block_safe asm len Hne s1 G1 R4) as (br & s2 & E2 & G2 & C2 & F2 & I2 & V2 & D2). rewrite E2 in E. cbn [obind] in E.
    destruct br as [data|e]; injection E as <- <-; unfold mu; cbn [bi_sync]; lia.
  - left. injection E as <- <-. reflexivity.
  - right. injection E as <- <-. cbn [bi_sync] in *. destruct (FA k eq_refl) as [X1 [X2|X2]].
    + right. split; [split; assumption|eauto].
    + left. unfold mu. cbn [bi_sync]. unfold vl, view. unfold vt in X2. rewrite X1. cbn [rev map app]. rewrite app_length. lia.
Qed.
CoFixpoint dead_forever (s : biter) (c : N) (G : binv asm len s) (D : dead s) (F : fin (b_reader (sy_bytes (bi_sync s))) = Failing c) : fails_forever biter_next s :=
  fails_again biter_next s s (Io (OtherIo c)) (dead_next asm len Hne s c G D F) (dead_forever s c G D F).

Lemma sync_reads_failing : forall c n s, mu s <= n -> binv asm len s -> fin (b_reader (sy_bytes (bi_sync s))) = Failing c ->
  exists items h, reads biter_next s items h /\ h <> Breaks.
Proof.
  intros c n. induction n as [n IH] using lt_wf_ind; intros s L G F.
  destruct (failing_next s c G F) as (o & s' & E & G' & F' & C). destruct o as [a|].
  - destruct C as [C|[C|[D (e & Ee)]]]; [discriminate| |].
    + destruct (IH (mu s') ltac:(lia) s' (le_n _) G' F') as (items & h & R & N). exists (a :: items), h. split; [eapply reads_item; eassumption|exact N].
    + injection Ee as ->. exists [], Forever. split; [|discriminate]. apply reads_fail. eapply fails_again; [exact E|]. eapply dead_forever; eassumption.
  - exists [], (EndsIn s'). split; [apply reads_end; exact E|discriminate].
Qed.
Lemma reads_yields : forall S A (next : S -> outcome (option (result A) * S)) s items, yields next s items -> exists s', reads next s items (EndsIn s').
Proof. intros S A next s items Y. induction Y as [s s' E|s s' a items E Y [s2 IH]]; eexists; [apply reads_end; exact E|eapply reads_item; [exact E|exact IH]]. Qed.
Lemma yields_reads : forall S A (next : S -> outcome (option (result A) * S)) s items s', reads next s items (EndsIn s') -> yields next s items.
Proof.
  intros S A next s items s' R. remember (EndsIn s') as h eqn:E0. induction R as [s s1 E|s E|s F|s s1 a items h E R IH]; try discriminate.
  - eapply yields_nil; exact E.
  - eapply yields_cons; [exact E|apply IH; exact E0].
Qed.
Lemma sync_reads : forall r, exists items h, reads biter_next (synchronize r asm len) items h /\ h <> Breaks /\ (fin r = AtEof -> h <> Forever).
Proof.
  intro r. assert (G := binv_start asm len Hne r).
  assert (F : fin (b_reader (sy_bytes (bi_sync (synchronize r asm len)))) = fin r) by (unfold synchronize, syncer_new; destruct (create_patterns asm); reflexivity).
  destruct (fin r) as [|c] eqn:FR.
  - destruct (sync_ends asm len Hne _ _ G F (le_n _)) as (items & Y & _). destruct (reads_yields _ _ _ _ _ Y) as [s' R]. exists items, (EndsIn s').
    split; [exact R|]. split; intros; discriminate.
  - destruct (sync_reads_failing c _ _ (le_n _) G F) as (items & h & R & N). exists items, h. split; [exact R|]. split; [exact N|discriminate].
Qed.
End Reads.
