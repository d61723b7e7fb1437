(* Properties C23 - C29: synchronization *)
From Verif Require Import Base S_Bits M_Reader M_Bytes M_Sync S_Packet S_Sync L_Base L_Bits L_Timecode L_Reader L_Sync L_SyncBits L_SyncRun L_SyncIter L_SyncSafe.
Open Scope nat_scope.

(* ---- C23: the items are exactly those of the specification over the bit string of the stream,
   for every way of cutting the stream into chunks ---- *)
Theorem C23_sync_exact : forall asm len r bs items,
  bytes_ok asm -> asm <> [] -> bytes_ok bs -> delivers r bs ->
  (yields biter_next (synchronize r asm len) items <-> sync_run asm len (bits bs) 0 0 items).
Proof. exact sync_iff. Qed.
Print Assumptions C23_sync_exact.

Theorem C23_sync_defined : forall asm len r bs,
  bytes_ok asm -> asm <> [] -> bytes_ok bs -> delivers r bs ->
  exists items, yields biter_next (synchronize r asm len) items /\ sync_run asm len (bits bs) 0 0 items.
Proof.
  intros asm len r bs Ha Hn Hb HD.
  destruct (run_total asm len bs Hn Hb (8 * length bs) 0 0 ltac:(lia) ltac:(lia)) as [l R].
  exists l. split; [apply (sync_iff asm len r bs l Ha Hn Hb HD); exact R|exact R].
Qed.
Print Assumptions C23_sync_defined.

Lemma delivers_file : forall bs, bs <> [] -> delivers (reader_of bs) bs.
Proof. intros bs H. split; [|reflexivity]. unfold reader_of. cbn [evs]. rewrite vdata by exact H. cbn. apply app_nil_r. Qed.

(* the specification at work: a marker 3 bits into the stream, data realigned, then no more *)
Example C23_ex : yields biter_next (synchronize (reader_of [0x03; 0x59; 0xff; 0x83; 0xa0; 0x20; 0x5f]%N) ASM 2)
  [Ok (mkBlock 0 (mkLoc 5 5) [1; 2]%N)].
Proof. apply (run_yields _ _ _ 10). vm_compute. reflexivity. Qed.
Example C23_ex_hyp : delivers (mkReader [EvData [0x03]; EvData [0x59; 0xff]; EvData [0x83; 0xa0; 0x20; 0x5f]] AtEof)%N [0x03; 0x59; 0xff; 0x83; 0xa0; 0x20; 0x5f]%N.
Proof. split; reflexivity. Qed.

(* ---- C24: the data of every block that lies inside the stream is the 8*len bits after its marker ---- *)
Lemma loc_at_designates : forall d, designates (loc_at d) d.
Proof.
  intro d. unfold designates, loc_at. cbn [l_offset l_bit]. rewrite Nat2N.id.
  assert (D := Nat.div_mod d 8 ltac:(lia)). assert (B := Nat.mod_upper_bound d 8 ltac:(lia)).
  set (q := d / 8) in *. set (m := d mod 8) in *. clearbody q m.
  assert (M := Nat.mod_upper_bound (8 - m) 8 ltac:(lia)).
  split; [lia|]. split; [|lia]. subst d. replace (q + 1 - 1) with q by lia. f_equal.
  destruct (Nat.eq_dec m 0) as [->|]; [reflexivity|]. rewrite (Nat.mod_small (8 - m) 8) by lia.
  rewrite Nat.mod_small by lia. lia.
Qed.
Theorem C24_block_data : forall asm len r bs items,
  bytes_ok asm -> asm <> [] -> bytes_ok bs -> delivers r bs ->
  yields biter_next (synchronize r asm len) items ->
  forall b, In (Ok b) items -> exists d,
    designates (bl_loc b) d /\ 8 * length asm <= d /\
    occurs asm (bits bs) (d - 8 * length asm) /\
    length (bl_data b) = len /\
    (d + 8 * len <= 8 * length bs -> bits (bl_data b) = firstn (8 * len) (skipn d (bits bs))).
Proof.
  intros asm len r bs items Ha Hn Hb HD Y b HI.
  apply (sync_iff asm len r bs items Ha Hn Hb HD) in Y.
  assert (Y' : exists p0 l0, sync_run asm len (bits bs) p0 l0 items) by (exists 0, 0; exact Y).
  clear Y. destruct Y' as (p0 & l0 & Y).
  induction Y as [pos last NM|pos last p d data items EA Hd HL Bd Ed R IH|pos last p d data EA Hd HL HM Bd Ld Ed|pos last p d EA Hd HL HM].
  - contradiction.
  - destruct HI as [E|HI]; [|apply IH; exact HI]. injection E as <-. exists d. cbn [bl_loc bl_data].
    split; [apply loc_at_designates|]. split; [lia|]. split; [replace (d - 8 * length asm) with p by lia; apply EA|].
    split; [|intros _; exact Ed].
    apply (f_equal (@length bool)) in Ed. rewrite bits_length, firstn_length, skipn_length in Ed. lia.
  - destruct HI as [E|[]]. injection E as <-. exists d. cbn [bl_loc bl_data].
    split; [apply loc_at_designates|]. split; [lia|]. split; [replace (d - 8 * length asm) with p by lia; apply EA|].
    split; [exact Ld|]. rewrite bits_length in HL. lia.
  - destruct HI as [E|[]]. discriminate.
Qed.
Print Assumptions C24_block_data.

(* ---- C25: round trip ---- *)
Lemma occurs_app : forall asm a b q, q + 8 * length asm <= length a ->
  (occurs asm (a ++ b) q <-> occurs asm a q).
Proof.
  intros asm a b q H. unfold occurs. rewrite skipn_app_le by lia.
  rewrite firstn_app_le by (rewrite skipn_length; lia). reflexivity.
Qed.
Lemma occurs_shift : forall asm a b q, length a <= q -> (occurs asm (a ++ b) q <-> occurs asm b (q - length a)).
Proof. intros asm a b q H. unfold occurs. rewrite skipn_app_ge by lia. reflexivity. Qed.
Lemma cadus_run : forall asm len tail, asm <> [] -> no_more asm tail 0 ->
  forall blocks, Forall (fun b => bytes_ok b /\ length b = len) blocks ->
  forall junk last, exists items,
    sync_run asm len (junk ++ flat_map (cadu_bits asm) blocks ++ tail) (length junk) last (map Ok items) /\
    map bl_data items = blocks.
Proof.
  intros asm len tail Hn NM. induction blocks as [|blk blocks IH]; intros HB junk last.
  - exists []. split; [|reflexivity]. apply run_end. intros q Hq X. cbn [flat_map app] in X.
    rewrite occurs_shift in X by exact Hq. exact (NM _ (Nat.le_0_l _) X).
  - inversion HB as [|? ? [Bo Bl] HB']; subst.
    cbn [flat_map]. unfold cadu_bits at 1.
    set (rest := flat_map (cadu_bits asm) blocks ++ tail).
    assert (EQ : junk ++ ((bits asm ++ bits blk) ++ flat_map (cadu_bits asm) blocks) ++ tail
                 = (junk ++ bits asm ++ bits blk) ++ rest).
    { unfold rest. rewrite !app_assoc. reflexivity. }
    rewrite EQ.
    destruct (IH HB' (junk ++ bits asm ++ bits blk) (l_offset (loc_at (length junk + 8 * length asm)))) as (items & R & M).
    fold rest in R.
    exists (mkBlock (if last =? 0 then 0 else l_offset (loc_at (length junk + 8 * length asm)) - last) (loc_at (length junk + 8 * length asm)) blk :: items).
    split; [|cbn; congruence]. cbn [map].
    eapply run_block with (p := length junk) (d := length junk + 8 * length asm); try reflexivity.
    + split; [lia|]. split; [|intros; lia]. unfold occurs.
      rewrite <- app_assoc, skipn_app_exact, <- app_assoc, <- bits_length. apply firstn_app_exact.
    + rewrite !app_length, !bits_length. lia.
    + exact Bo.
    + rewrite <- app_assoc, skipn_app_ge by lia. replace (length junk + 8 * length asm - length junk) with (length (bits asm)) by (rewrite bits_length; lia).
      rewrite <- app_assoc, skipn_app_exact, <- bits_length. symmetry. apply firstn_app_exact.
    + replace (length junk + 8 * length asm + 8 * length blk) with (length (junk ++ bits asm ++ bits blk)) by (rewrite !app_length, !bits_length; lia).
      exact R.
Qed.
Lemma run_start : forall asm len B from pos last items,
  (forall q, from <= q < pos -> ~ occurs asm B q) -> from <= pos ->
  sync_run asm len B pos last items -> sync_run asm len B from last items.
Proof.
  intros asm len B from pos last items HN HF R.
  assert (K : forall p, earliest asm B pos p -> earliest asm B from p).
  { intros p (A & C & D). split; [lia|]. split; [exact C|]. intros q Hq. destruct (Nat.lt_ge_cases q pos); [apply HN; lia|apply D; lia]. }
  inversion R; subst.
  - apply run_end. intros q Hq. destruct (Nat.lt_ge_cases q pos); [apply HN; lia|]. match goal with X : no_more _ _ _ |- _ => apply X; lia end.
  - eapply run_block; try eassumption; [apply K; eassumption|reflexivity].
  - eapply run_truncated_aligned; try eassumption; [apply K; eassumption|reflexivity..].
  - eapply run_truncated_shifted; try eassumption; [apply K; eassumption|reflexivity].
Qed.

(* Any junk bits in which the marker does not start, any number of marker+block units back to back at
   whatever bit alignment that gives, any trailing bits without a marker. Nothing is assumed about the
   contents of the blocks: they may contain the marker. *)
Theorem C25_cadu_round_trip : forall asm len r bs junk blocks tail,
  bytes_ok asm -> asm <> [] -> bytes_ok bs -> delivers r bs ->
  bits bs = junk ++ flat_map (cadu_bits asm) blocks ++ tail ->
  Forall (fun b => bytes_ok b /\ length b = len) blocks ->
  (forall q, q < length junk -> ~ occurs asm (junk ++ bits asm) q) ->
  no_more asm tail 0 ->
  blocks <> [] ->
  exists items, yields biter_next (synchronize r asm len) (map Ok items) /\ map bl_data items = blocks.
Proof.
  intros asm len r bs junk blocks tail Ha Hn Hb HD EB HB HJ HT HX.
  destruct (cadus_run asm len tail Hn HT blocks HB junk 0) as (items & R & M).
  exists items. split; [|exact M]. apply (sync_iff asm len r bs _ Ha Hn Hb HD). rewrite EB.
  apply (run_start asm len _ 0 (length junk) 0 _); [|lia|exact R].
  intros q Hq X. apply (HJ q); [lia|].
  destruct blocks as [|blk blocks]; [congruence|]. cbn [flat_map] in X. unfold cadu_bits at 1 in X.
  replace (junk ++ ((bits asm ++ bits blk) ++ flat_map (cadu_bits asm) blocks) ++ tail)
    with ((junk ++ bits asm) ++ (bits blk ++ flat_map (cadu_bits asm) blocks ++ tail)) in X by (rewrite !app_assoc; reflexivity).
  rewrite occurs_app in X; [exact X|]. rewrite app_length, bits_length. lia.
Qed.
Print Assumptions C25_cadu_round_trip.

(* The standard marker 0x1ACFFC1D has no proper suffix that is also a prefix, so it is enough that the
   junk itself does not contain it. *)
Lemma ASM_no_border : forall k, 0 < k < 32 -> skipn (32 - k) (bits ASM) <> firstn k (bits ASM).
Proof.
  intros k H E.
  assert (F : forallb (fun j => negb (beqb (skipn (32 - j) (bits ASM)) (firstn j (bits ASM)))) (List.seq 1 31) = true) by (vm_compute; reflexivity).
  rewrite forallb_forall in F. specialize (F k). rewrite in_seq in F. specialize (F ltac:(lia)).
  rewrite E in F. unfold beqb in F. destruct (list_eq_dec Bool.bool_dec (firstn k (bits ASM)) (firstn k (bits ASM))); [discriminate|congruence].
Qed.
Lemma ASM_junk : forall junk q, q < length junk -> no_more ASM junk 0 -> ~ occurs ASM (junk ++ bits ASM) q.
Proof.
  intros junk q Hq NM X.
  destruct (Nat.le_gt_cases (q + 8 * length ASM) (length junk)) as [L|L].
  - apply (NM q (Nat.le_0_l _)). apply (occurs_app ASM junk (bits ASM)); assumption.
  - change (8 * length ASM) with 32 in L.
    assert (KB : 0 < q + 32 - length junk < 32) by lia.
    apply (ASM_no_border (q + 32 - length junk) KB).
    unfold occurs in X. change (8 * length ASM) with 32 in X.
    rewrite <- X at 1. rewrite skipn_firstn_comm. replace (32 - (32 - (q + 32 - length junk))) with (q + 32 - length junk) by lia.
    rewrite skipn_skipn. replace (32 - (q + 32 - length junk) + q) with (length junk) by lia.
    rewrite skipn_app_exact. reflexivity.
Qed.
Theorem C25_standard_marker_round_trip : forall len r bs junk blocks tail,
  bytes_ok bs -> delivers r bs ->
  bits bs = junk ++ flat_map (cadu_bits ASM) blocks ++ tail ->
  Forall (fun b => bytes_ok b /\ length b = len) blocks -> blocks <> [] ->
  no_more ASM junk 0 -> no_more ASM tail 0 ->
  exists items, yields biter_next (synchronize r ASM len) (map Ok items) /\ map bl_data items = blocks.
Proof.
  intros len r bs junk blocks tail Hb HD EB HB HX HJ HT.
  apply (C25_cadu_round_trip ASM len r bs junk blocks tail); try assumption.
  - repeat constructor.
  - discriminate.
  - intros q Hq. apply ASM_junk; assumption.
Qed.
Print Assumptions C25_standard_marker_round_trip.
(* non-vacuity: 3 junk bits, two blocks, the first of which contains the marker itself, 5 tail bits *)
Example C25_ex_hyp : exists bs, bytes_ok bs /\
  bits bs = [false; true; true] ++ flat_map (cadu_bits ASM) [ASM; [1; 2; 3; 4]%N] ++ [true; true; true; true; true] /\
  no_more ASM [false; true; true] 0 /\ no_more ASM [true; true; true; true; true] 0.
Proof.
  destruct (of_bits 17 ([false; true; true] ++ flat_map (cadu_bits ASM) [ASM; [1; 2; 3; 4]%N] ++ [true; true; true; true; true]) eq_refl) as (bs & B & E).
  exists bs. split; [exact B|]. split; [exact E|].
  split; intros q _ X; apply occurs_bound in X; cbn in X; try discriminate; lia.
Qed.

(* ---- C26: locations ---- *)
Definition offset_of (it : result block) : nat := match it with Ok b => l_offset (bl_loc b) | Err _ => 0 end.
Theorem C26_locations : forall asm len r bs items,
  bytes_ok asm -> asm <> [] -> bytes_ok bs -> delivers r bs ->
  yields biter_next (synchronize r asm len) items ->
  forall before b after, items = before ++ Ok b :: after ->
    1 <= l_offset (bl_loc b) /\
    (before = [] -> bl_last b = 0) /\
    (forall before' prev, before = before' ++ [Ok prev] ->
       l_offset (bl_loc b) = l_offset (bl_loc prev) + bl_last b) /\
    (before <> [] -> exists before' prev, before = before' ++ [Ok prev]).
Proof.
  intros asm len r bs items Ha Hn Hb HD Y.
  apply (sync_iff asm len r bs items Ha Hn Hb HD) in Y.
  assert (K : forall pos last items, sync_run asm len (bits bs) pos last items -> last <= pos / 8 + 1 ->
    forall before b after, items = before ++ Ok b :: after ->
    1 <= l_offset (bl_loc b) /\
    (before = [] -> bl_last b = (if last =? 0 then 0 else l_offset (bl_loc b) - last) /\ last <= l_offset (bl_loc b)) /\
    (forall before' prev, before = before' ++ [Ok prev] ->
       l_offset (bl_loc b) = l_offset (bl_loc prev) + bl_last b) /\
    (before <> [] -> exists before' prev, before = before' ++ [Ok prev])).
  { clear Y items. induction 1 as [pos last NM|pos last p d data items EA Hd HL Bd Ed R IH|pos last p d data EA Hd HL HM Bd Ld Ed|pos last p d EA Hd HL HM];
      intros HLast before b after E.
    - destruct before; discriminate.
    - assert (PD : pos / 8 <= d / 8) by (apply Nat.div_le_mono; [lia|]; destruct EA; lia).
      destruct before as [|it before].
      + cbn [app] in E. injection E as <- <-. cbn [bl_loc bl_last]. unfold loc_at at 1. cbn [l_offset].
        split; [lia|]. split; [intros _; split; [reflexivity|unfold loc_at; cbn [l_offset]; lia]|].
        split; [intros before' prev E; destruct before'; discriminate|congruence].
      + cbn [app] in E. injection E as <- E.
        assert (HD' : l_offset (loc_at d) <= (d + 8 * len) / 8 + 1) by (unfold loc_at; cbn [l_offset]; destruct (divmod_add d len) as [-> _]; lia).
        destruct (IH HD' before b after E) as (I1 & I2 & I3 & I4).
        split; [exact I1|]. split; [discriminate|]. destruct before as [|it2 before].
        * destruct (I2 eq_refl) as [L1 L2]. split; [|intros _; eexists []; eexists; reflexivity].
          intros before' prev EP. destruct before' as [|? before']; [|destruct before'; discriminate].
          injection EP as <-. cbn [bl_loc]. rewrite L1.
          destruct (Nat.eqb_spec (l_offset (loc_at d)) 0) as [Z|Z]; [unfold loc_at in Z; cbn [l_offset] in Z; lia|lia].
        * split.
          -- intros before' prev EP. destruct before' as [|? before']; [discriminate|]. injection EP as _ EP. eapply I3; exact EP.
          -- intros _. destruct (I4 ltac:(discriminate)) as (b' & prev & EP). exists (Ok (mkBlock (if last =? 0 then 0 else l_offset (loc_at d) - last) (loc_at d) data) :: b'), prev. rewrite EP. reflexivity.
    - assert (PD : pos / 8 <= d / 8) by (apply Nat.div_le_mono; [lia|]; destruct EA; lia).
      destruct before as [|it before]; [|destruct before; discriminate].
      cbn [app] in E. injection E as <- <-. cbn [bl_loc bl_last]. unfold loc_at at 1. cbn [l_offset].
      split; [lia|]. split; [intros _; split; [reflexivity|unfold loc_at; cbn [l_offset]; lia]|].
      split; [intros before' prev E; destruct before'; discriminate|congruence].
    - destruct before as [|it before]; [discriminate|destruct before; discriminate]. }
  intros before b after E. destruct (K 0 0 items Y ltac:(cbn; lia) before b after E) as (K1 & K2 & K3 & K4).
  split; [exact K1|]. split; [|split; [exact K3|exact K4]]. intro EB. destruct (K2 EB) as [K5 _]. exact K5.
Qed.
Print Assumptions C26_locations.
(* the location is that of the first bit of the data: right behind the first marker from the end of the block before on *)
Theorem C26_first_data_bit : forall asm len r bs items,
  bytes_ok asm -> asm <> [] -> bytes_ok bs -> delivers r bs ->
  yields biter_next (synchronize r asm len) items ->
  forall before b after, items = before ++ Ok b :: after ->
    exists d from, designates (bl_loc b) d /\ 8 * length asm <= d /\ earliest asm (bits bs) from (d - 8 * length asm) /\
      (before = [] -> from = 0) /\
      (forall before' prev dp, before = before' ++ [Ok prev] -> designates (bl_loc prev) dp -> from = dp + 8 * len).
Proof.
  intros asm len r bs items Ha Hn Hb HD Y.
  apply (sync_iff asm len r bs items Ha Hn Hb HD) in Y.
  assert (K : forall pos last items, sync_run asm len (bits bs) pos last items ->
    forall before b after, items = before ++ Ok b :: after ->
    exists d from, designates (bl_loc b) d /\ 8 * length asm <= d /\ earliest asm (bits bs) from (d - 8 * length asm) /\
      (before = [] -> from = pos) /\
      (forall before' prev dp, before = before' ++ [Ok prev] -> designates (bl_loc prev) dp -> from = dp + 8 * len)).
  { clear Y items. induction 1 as [pos last NM|pos last p d data items EA Hd HL Bd Ed R IH|pos last p d data EA Hd HL HM Bd Ld Ed|pos last p d EA Hd HL HM];
      intros before b after E.
    - destruct before; discriminate.
    - destruct before as [|it before].
      + cbn [app] in E. injection E as <- <-. cbn [bl_loc]. exists d, pos. split; [apply loc_at_designates|]. split; [lia|].
        split; [replace (d - 8 * length asm) with p by lia; exact EA|]. split; [reflexivity|]. intros before' prev dp E. destruct before'; discriminate.
      + cbn [app] in E. injection E as <- E. destruct (IH before b after E) as (d1 & from & A & B & C & D & F). exists d1, from.
        split; [exact A|]. split; [exact B|]. split; [exact C|]. split; [discriminate|]. intros before' prev dp EP DP.
        destruct before' as [|x before']; cbn [app] in EP; injection EP as E1 E2.
        * subst before prev. cbn [bl_loc] in DP. rewrite (D eq_refl). f_equal.
          destruct (loc_at_designates d) as (_ & G & _). destruct DP as (_ & G2 & _). rewrite G2. exact G.
        * eapply F; [exact E2|exact DP].
    - destruct before as [|it before]; [|destruct before; discriminate]. cbn [app] in E. injection E as <- <-. cbn [bl_loc].
      exists d, pos. split; [apply loc_at_designates|]. split; [lia|]. split; [replace (d - 8 * length asm) with p by lia; exact EA|].
      split; [reflexivity|]. intros before' prev dp E. destruct before'; discriminate.
    - destruct before as [|it before]; [discriminate|destruct before; discriminate]. }
  exact (K 0 0 items Y).
Qed.
Print Assumptions C26_first_data_bit.

(* ---- C27: a truncated final block. Exact behaviour: the last two rules of sync_run. The claim that the
   iterator just ends is false, for every marker and every truncation point ---- *)
Lemma occurs_at_start : forall asm B p, firstn (8 * length asm) (skipn p B) = bits asm -> occurs asm B p.
Proof. intros. exact H. Qed.
Theorem C27_truncated_aligned_refuted : forall asm len r partial,
  bytes_ok asm -> asm <> [] -> bytes_ok partial -> length partial < len -> delivers r (asm ++ partial) ->
  yields biter_next (synchronize r asm len)
    [Ok (mkBlock 0 (mkLoc (length asm + 1) 0) (partial ++ repeat 0%N (len - length partial)))].
Proof.
  intros asm len r partial Ha Hn Hp HL HD.
  apply (sync_iff asm len r (asm ++ partial) _ Ha Hn); [apply bytes_ok_app; auto|exact HD|].
  assert (D8 : (8 * length asm) mod 8 = 0) by (rewrite Nat.mul_comm; apply Nat.mod_mul; lia).
  assert (LA : loc_at (8 * length asm) = mkLoc (length asm + 1) 0).
  { unfold loc_at. rewrite D8. rewrite (Nat.mul_comm 8), Nat.div_mul by lia. reflexivity. }
  rewrite <- LA.
  replace 0 with (if 0 =? 0 then 0 else l_offset (loc_at (8 * length asm)) - 0) at 3 by reflexivity.
  apply (run_truncated_aligned asm len _ 0 0 0 (8 * length asm)).
  - split; [lia|]. split; [|intros; lia]. unfold occurs. cbn [skipn]. rewrite bits_app, <- bits_length. apply firstn_app_exact.
  - lia.
  - rewrite bits_length, app_length. lia.
  - exact D8.
  - apply bytes_ok_app. split; [exact Hp|apply bytes_ok_repeat0].
  - rewrite app_length, repeat_length. lia.
  - rewrite !bits_app, <- (bits_length asm), skipn_app_exact. f_equal.
    rewrite app_length, !bits_length.
    assert (X : forall k, bits (repeat 0%N k) = repeat false (8 * k)).
    { induction k; [reflexivity|]. cbn [repeat]. rewrite bits_cons, IHk. replace (8 * S k) with (8 + 8 * k) by lia. reflexivity. }
    rewrite X. f_equal. lia.
Qed.
Print Assumptions C27_truncated_aligned_refuted.
Theorem C27_truncated_shifted_refuted : forall asm len r bs junk partial,
  bytes_ok asm -> asm <> [] -> bytes_ok bs -> delivers r bs ->
  bits bs = junk ++ bits asm ++ partial -> length junk mod 8 <> 0 ->
  (forall q, q < length junk -> ~ occurs asm (bits bs) q) ->
  length partial < 8 * len ->
  yields biter_next (synchronize r asm len) [Err (Io UnexpectedEof)].
Proof.
  intros asm len r bs junk partial Ha Hn Hb HD EB HM HJ HL.
  apply (sync_iff asm len r bs _ Ha Hn Hb HD).
  apply (run_truncated_shifted asm len _ 0 0 (length junk) (length junk + 8 * length asm)).
  - split; [lia|]. split; [|intros q Hq; apply HJ; lia]. unfold occurs. rewrite EB, skipn_app_exact, <- bits_length. apply firstn_app_exact.
  - reflexivity.
  - rewrite EB, !app_length, bits_length. lia.
  - destruct (divmod_add (length junk) (length asm)) as [_ ->]. exact HM.
Qed.
Print Assumptions C27_truncated_shifted_refuted.
(* after a truncated block nothing follows *)
Theorem C27_nothing_after : forall asm len r bs items before b after,
  bytes_ok asm -> asm <> [] -> bytes_ok bs -> delivers r bs ->
  yields biter_next (synchronize r asm len) items -> items = before ++ b :: after ->
  (forall e, b = Err e -> e = Io UnexpectedEof /\ after = []) /\
  (forall blk d, b = Ok blk -> designates (bl_loc blk) d -> 8 * length bs < d + 8 * len -> after = []).
Proof.
  intros asm len r bs items before b after Ha Hn Hb HD Y E.
  apply (sync_iff asm len r bs items Ha Hn Hb HD) in Y. revert before E.
  assert (Y' : exists p0 l0, sync_run asm len (bits bs) p0 l0 items) by (exists 0, 0; exact Y).
  clear Y. destruct Y' as (p0 & l0 & Y).
  induction Y as [pos last NM|pos last p d data items EA Hd HL Bd Ed R IH|pos last p d data EA Hd HL HM Bd Ld Ed|pos last p d EA Hd HL HM];
   intros before E.
  - destruct before; discriminate.
  - destruct before as [|x before]; cbn [app] in E; injection E as E1 E2; [|eapply IH; exact E2].
    split; [intros e EE; rewrite EE in E1; discriminate|]. intros blk d' EB (D1 & D2 & D3) HT.
    assert (EL : bl_loc blk = loc_at d) by (rewrite EB in E1; assert (X := f_equal (fun it => match it with Ok x => bl_loc x | Err _ => loc_at d end) E1); symmetry; exact X).
    rewrite EL in D2. destruct (loc_at_designates d) as (_ & D4 & _). rewrite bits_length in HL.
    exfalso. lia.
  - destruct before as [|x before]; [|destruct before; discriminate]. cbn [app] in E. injection E as <- <-.
    split; [discriminate|reflexivity].
  - destruct before as [|x before]; [|destruct before; discriminate]. cbn [app] in E. injection E as <- <-.
    split; [|discriminate]. intros e EE. injection EE as <-. auto.
Qed.
Print Assumptions C27_nothing_after.
Example C27_ex : length [9%N] < 3 /\ delivers (reader_of (ASM ++ [9%N])) (ASM ++ [9%N]).
Proof. split; [cbn; lia|apply delivers_file; discriminate]. Qed.

(* ---- C28: every reader whatsoever: errors, end of file conditions that come and go, any contents ---- *)
Theorem C28_never_panics : forall asm len r items, asm <> [] ->
  ~ panics_after biter_next (synchronize r asm len) items.
Proof. intros asm len r items Hn. apply (sync_never_panics asm len Hn). apply binv_start; exact Hn. Qed.
Print Assumptions C28_never_panics.
Theorem C28_terminates : forall asm len r, asm <> [] -> fin r = AtEof ->
  exists items, yields biter_next (synchronize r asm len) items /\
    length items <= 8 * length (vtranscript (evs r)) + 8.
Proof.
  intros asm len r Hn HF.
  destruct (sync_ends asm len Hn (mu (synchronize r asm len)) _ (binv_start asm len Hn r)) as (items & Y & L); [| |exists items; split; [exact Y|]].
  - unfold fins, synchronize, syncer_new. destruct (create_patterns asm). exact HF.
  - lia.
  - unfold mu, synchronize, syncer_new, vl, view in L. destruct (create_patterns asm). cbn in L. unfold vtranscript in *. lia.
Qed.
Print Assumptions C28_terminates.
Theorem C28_block_lengths : forall asm len r items, asm <> [] ->
  yields biter_next (synchronize r asm len) items ->
  Forall (fun it => match it with Ok b => length (bl_data b) = len | Err _ => True end) items.
Proof. intros asm len r items Hn Y. eapply yields_lengths; [exact Hn|exact Y|apply binv_start; exact Hn]. Qed.
Print Assumptions C28_block_lengths.
(* the marker must not be empty: with an empty one the iteration over any stream is endless blocks, see
   C28_ex_empty: 5 calls, 5 blocks, although the stream holds nothing *)
Example C28_ex_empty : run biter_next 5 (synchronize (reader_of []) [] 1)
  = (repeat (Ok (mkBlock 0 (mkLoc 1 0) [0%N])) 1 ++ repeat (Ok (mkBlock 0 (mkLoc 1 0) [0%N])) 4, OutOfFuel).
Proof. vm_compute. reflexivity. Qed.

(* ---- C29 ---- *)
Theorem C29_chunking : forall asm len r r' items,
  vtranscript (evs r) = vtranscript (evs r') -> fin r = fin r' ->
  (yields biter_next (synchronize r asm len) items <-> yields biter_next (synchronize r' asm len) items).
Proof.
  intros asm len r r' items V F. split; intro Y; eapply same_yields; try exact Y; apply same_start; split; congruence.
Qed.
Print Assumptions C29_chunking.

Lemma cmp_short_prefix : forall a rest, bytes_ok a -> rest <> [] ->
  cmp (a ++ rest) (repeat 255%N (length (a ++ rest))) a = CShort.
Proof.
  induction a as [|x a IH]; intros rest Ha Hr.
  - destruct rest; [congruence|reflexivity].
  - inversion Ha; subst. cbn [app length repeat cmp].
    assert (E : N.land x 255 = x) by (change 255%N with (N.ones 8); rewrite N.land_ones; apply N.mod_small; assumption).
    rewrite E, N.eqb_refl. rewrite IH by assumption. reflexivity.
Qed.
(* An Interrupted read in the middle of a marker: the bytes of the marker read before it are gone. For every
   marker, every cut point and every block: the block is lost and an error item comes instead, whereas the
   same stream without the interruption yields the block. *)
Theorem C29_interrupted_refuted : forall asm len a rest blk,
  bytes_ok asm -> asm = a ++ rest -> a <> [] -> rest <> [] -> bytes_ok blk -> length blk = len ->
  no_more asm (bits (rest ++ blk)) 0 ->
  yields biter_next (synchronize (mkReader [EvData a; EvFail Interrupted; EvData (rest ++ blk)] AtEof) asm len)
    [Err (Io Interrupted)] /\
  yields biter_next (synchronize (mkReader [EvData a; EvData (rest ++ blk)] AtEof) asm len)
    [Ok (mkBlock 0 (mkLoc (length asm + 1) 0) blk)].
Proof.
  intros asm len a rest blk Ha EA Hna Hnr Hb HL NM.
  assert (Hn : asm <> []) by (rewrite EA; destruct a; [congruence|discriminate]).
  assert (Hr0 : rest ++ blk <> []) by (destruct rest; [congruence|discriminate]).
  assert (Hab : bytes_ok a /\ bytes_ok rest) by (rewrite EA in Ha; apply bytes_ok_app in Ha; exact Ha).
  split.
  - set (r := mkReader [EvData a; EvFail Interrupted; EvData (rest ++ blk)] AtEof).
    set (s := syncer_new r len asm).
    assert (SP : sy_patterns s = fst (create_patterns asm) /\ sy_masks s = snd (create_patterns asm) /\ sy_block_size s = len /\ sy_idx s = 0 /\ sy_bytes s = bytes_new r).
    { unfold s, syncer_new. destruct (create_patterns asm). repeat split; reflexivity. }
    destruct SP as (SP & SM & SL & SI & SB).
    assert (V : view (sy_bytes s) = map TByte a ++ TErr Interrupted :: map TByte (rest ++ blk)).
    { rewrite SB. unfold view, r. cbn [bytes_new b_cache rev map app b_reader evs]. rewrite vdata by exact Hna. f_equal.
      transitivity (TErr Interrupted :: vtranscript [EvData (rest ++ blk)]); [reflexivity|]. rewrite vdata by exact Hr0. cbn [vtranscript flat_map]. rewrite app_nil_r. reflexivity. }
    assert (T := try_spec asm (repeat 255%N (length asm)) [] 0%N (sy_bytes s) a _ (repeat_length _ _) V I).
    assert (CS : cmp asm (repeat 255%N (length asm)) a = CShort) by (rewrite EA; apply cmp_short_prefix; tauto).
    rewrite CS in T. destruct T as (b1 & E & V1 & C1 & N1 & F1).
    assert (G : good asm len (b_num_read b1) (rest ++ blk) (sy_set s b1 0) 0).
    { split; cbn [sy_set sy_patterns sy_masks sy_block_size sy_idx sy_bytes]; try assumption; try reflexivity.
      - unfold cl. rewrite C1. cbn. lia.
      - unfold cl. rewrite C1. cbn. lia.
      - lia. }
    assert (Bo : bytes_ok (rest ++ blk)) by (apply bytes_ok_app; tauto).
    eapply yields_cons; [|eapply ended; [exact Ha|exact Hn|exact Bo|exact G|exact NM]].
    unfold biter_next, synchronize. cbn [bi_sync bi_last]. fold r s. unfold scan.
    assert (EF : exists f, scan_fuel s = S f) by (unfold scan_fuel; eexists; rewrite Nat.add_comm; reflexivity).
    destruct EF as [f ->]. cbn [scan_loop]. rewrite SP, SM, SI, get_pat, get_mask by lia. cbn [obind].
    rewrite pat_0, mask_0. rewrite E. cbn [obind head_kind]. reflexivity.
  - assert (D : delivers (mkReader [EvData a; EvData (rest ++ blk)] AtEof) (asm ++ blk)).
    { split; [|reflexivity]. cbn [evs]. rewrite !vdata by assumption. cbn [vtranscript flat_map]. rewrite app_nil_r, EA, <- map_app, <- app_assoc. reflexivity. }
    apply (sync_iff asm len _ (asm ++ blk) _ Ha Hn); [apply bytes_ok_app; auto|exact D|].
    assert (D8 : (8 * length asm) mod 8 = 0) by (rewrite Nat.mul_comm; apply Nat.mod_mul; lia).
    assert (LA : loc_at (8 * length asm) = mkLoc (length asm + 1) 0).
    { unfold loc_at. rewrite D8. rewrite (Nat.mul_comm 8), Nat.div_mul by lia. reflexivity. }
    rewrite <- LA.
    replace 0 with (if 0 =? 0 then 0 else l_offset (loc_at (8 * length asm)) - 0) at 3 by reflexivity.
    apply (run_block asm len _ 0 0 0 (8 * length asm)).
    + split; [lia|]. split; [|intros; lia]. unfold occurs. cbn [skipn]. rewrite bits_app, <- bits_length. apply firstn_app_exact.
    + lia.
    + rewrite bits_length, app_length. lia.
    + exact Hb.
    + rewrite bits_app, <- (bits_length asm), skipn_app_exact, <- HL, <- bits_length. symmetry. apply firstn_all.
    + apply run_end. intros q Hq X. apply occurs_bound in X; [|exact Hn]. rewrite bits_length, app_length in X.
      destruct asm; [congruence|]. cbn [length] in *. lia.
Qed.
Print Assumptions C29_interrupted_refuted.
Example C29_ex_hyp : no_more ASM (bits ([0xcf; 0xfc; 0x1d] ++ [1; 2])%N) 0.
Proof.
  intros q _ X. assert (B := occurs_bound ASM _ q ltac:(discriminate) X). change (length (bits ([0xcf; 0xfc; 0x1d] ++ [1; 2])%N)) with 40 in B. change (8 * length ASM) with 32 in B.
  unfold occurs in X. assert (q <= 8) by lia. do 9 (destruct q as [|q]; [vm_compute in X; discriminate|]). lia.
Qed.
