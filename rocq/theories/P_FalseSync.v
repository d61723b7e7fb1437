(* Property C107: damaged blocks, false markers *)
From Verif Require Import Base S_Bits M_Reader M_Bytes M_Sync S_Packet S_Sync L_Base L_Bits L_Timecode L_Reader L_Sync L_SyncBits L_SyncRun L_SyncIter L_SyncSafe P_Sync S_FalseSync.
Open Scope nat_scope.

(* the items for blocks sent back to back from the bit position pos on *)
Fixpoint cadu_items (asm : list N) (len pos last : nat) (blocks : list (list N)) : list block :=
  match blocks with
  | [] => []
  | b :: r => let l := loc_at (pos + 8 * length asm) in
      mkBlock (if last =? 0 then 0 else l_offset l - last) l b :: cadu_items asm len (pos + 8 * length asm + 8 * len) (l_offset l) r
  end.
Lemma cadu_items_run : forall asm len tail, asm <> [] -> no_more asm tail 0 ->
  forall blocks, Forall (fun b => bytes_ok b /\ length b = len) blocks -> forall junk last,
  sync_run asm len (junk ++ flat_map (cadu_bits asm) blocks ++ tail) (length junk) last (map Ok (cadu_items asm len (length junk) last blocks)).
Proof.
  intros asm len tail Hn NM. induction blocks as [|blk blocks IH]; intros HB junk last.
  - apply run_end. intros q Hq X. cbn [flat_map app] in X. rewrite occurs_shift in X by exact Hq. exact (NM _ (Nat.le_0_l _) X).
  - inversion HB as [|? ? [Bo Bl] HB']; subst. cbn [flat_map]. unfold cadu_bits at 1. set (rest := flat_map (cadu_bits asm) blocks ++ tail).
    replace (junk ++ ((bits asm ++ bits blk) ++ flat_map (cadu_bits asm) blocks) ++ tail) with ((junk ++ bits asm ++ bits blk) ++ rest)
      by (unfold rest; rewrite !app_assoc; reflexivity).
    assert (R := IH HB' (junk ++ bits asm ++ bits blk) (l_offset (loc_at (length junk + 8 * length asm)))). fold rest in R.
    assert (LJ : length (junk ++ bits asm ++ bits blk) = length junk + 8 * length asm + 8 * length blk) by (rewrite !app_length, !bits_length; lia).
    rewrite LJ in R. cbn [cadu_items map].
    eapply run_block with (p := length junk) (d := length junk + 8 * length asm); try reflexivity.
    + split; [lia|]. split; [|intros; lia]. unfold occurs. rewrite <- app_assoc, skipn_app_exact, <- app_assoc, <- bits_length. apply firstn_app_exact.
    + rewrite !app_length, !bits_length. lia.
    + exact Bo.
    + rewrite <- app_assoc, skipn_app_ge by lia. replace (length junk + 8 * length asm - length junk) with (length (bits asm)) by (rewrite bits_length; lia).
      rewrite <- app_assoc, skipn_app_exact, <- bits_length. symmetry. apply firstn_app_exact.
    + exact R.
Qed.
Lemma cadu_items_data : forall asm len blocks pos last, map bl_data (cadu_items asm len pos last blocks) = blocks.
Proof. intros asm len. induction blocks as [|b r IH]; intros pos last; [reflexivity|]. cbn. rewrite IH. reflexivity. Qed.
Lemma cadu_items_where : forall asm len blocks blocks', length blocks = length blocks' -> forall pos last,
  Forall2 (fun b b' => bl_last b = bl_last b' /\ bl_loc b = bl_loc b') (cadu_items asm len pos last blocks) (cadu_items asm len pos last blocks').
Proof.
  intros asm len. induction blocks as [|b r IH]; intros [|b' r'] L pos last; try discriminate; [constructor|]. cbn [cadu_items]. constructor; [split; reflexivity|].
  apply IH. injection L as L. exact L.
Qed.
Lemma cadus_yield : forall asm len r bs junk blocks tail, bytes_ok asm -> asm <> [] -> bytes_ok bs -> delivers r bs ->
  bits bs = junk ++ flat_map (cadu_bits asm) blocks ++ tail -> Forall (fun b => bytes_ok b /\ length b = len) blocks ->
  (forall q, q < length junk -> ~ occurs asm (junk ++ bits asm) q) -> no_more asm tail 0 -> blocks <> [] ->
  yields biter_next (synchronize r asm len) (map Ok (cadu_items asm len (length junk) 0 blocks)).
Proof.
  intros asm len r bs junk blocks tail Ha Hn Hb HD EB HB HJ HT HX.
  apply (sync_iff asm len r bs _ Ha Hn Hb HD). rewrite EB.
  apply (run_start asm len _ 0 (length junk) 0 _); [|lia|apply cadu_items_run; assumption].
  intros q Hq X. apply (HJ q); [lia|]. destruct blocks as [|blk blocks]; [congruence|]. cbn [flat_map] in X. unfold cadu_bits at 1 in X.
  replace (junk ++ ((bits asm ++ bits blk) ++ flat_map (cadu_bits asm) blocks) ++ tail)
    with ((junk ++ bits asm) ++ (bits blk ++ flat_map (cadu_bits asm) blocks ++ tail)) in X by (rewrite !app_assoc; reflexivity).
  rewrite occurs_app in X; [exact X|]. rewrite app_length, bits_length. lia.
Qed.

(* Whatever is damaged in blocks, their markers being whole, the blocks are found where they were, each with the bits that are now in its place *)
Theorem C107_damaged_blocks : forall asm len r r' bs bs' junk blocks blocks' tail, bytes_ok asm -> asm <> [] ->
  bytes_ok bs -> delivers r bs -> bits bs = junk ++ flat_map (cadu_bits asm) blocks ++ tail ->
  bytes_ok bs' -> delivers r' bs' -> bits bs' = junk ++ flat_map (cadu_bits asm) blocks' ++ tail ->
  Forall (fun b => bytes_ok b /\ length b = len) blocks -> Forall (fun b => bytes_ok b /\ length b = len) blocks' -> length blocks = length blocks' ->
  (forall q, q < length junk -> ~ occurs asm (junk ++ bits asm) q) -> no_more asm tail 0 -> blocks <> [] ->
  exists items items', yields biter_next (synchronize r asm len) (map Ok items) /\ yields biter_next (synchronize r' asm len) (map Ok items') /\
    Forall2 (fun b b' => bl_last b = bl_last b' /\ bl_loc b = bl_loc b') items items' /\ map bl_data items = blocks /\ map bl_data items' = blocks'.
Proof.
  intros asm len r r' bs bs' junk blocks blocks' tail Ha Hn Hb HD EB Hb' HD' EB' HB HB' LB HJ HT HX.
  exists (cadu_items asm len (length junk) 0 blocks), (cadu_items asm len (length junk) 0 blocks').
  assert (HX' : blocks' <> []) by (intro Z0; rewrite Z0 in LB; destruct blocks; [apply HX; reflexivity|discriminate LB]).
  split; [apply (cadus_yield asm len r bs junk blocks tail); assumption|]. split; [apply (cadus_yield asm len r' bs' junk blocks' tail); assumption|]. split; [apply cadu_items_where; exact LB|].
  split; apply cadu_items_data.
Qed.
Print Assumptions C107_damaged_blocks.

(* A marker that happens to be in the bits before the first block of a run (noise; or what is left of blocks whose marker was damaged): it is taken for one, and
   costs the first block of the run at most, unless there is another one in what is left of that block *)
Theorem C107_false_marker : forall asm len r bs junk b blocks tail f next left_over, bytes_ok asm -> asm <> [] -> bytes_ok bs -> delivers r bs ->
  bits bs = junk ++ flat_map (cadu_bits asm) (b :: blocks) ++ tail -> Forall (fun b => bytes_ok b /\ length b = len) (b :: blocks) -> no_more asm tail 0 ->
  f < length junk -> earliest asm (bits bs) 0 f -> let behind := f + 8 * length asm + 8 * len in
  (behind <= length junk /\ next = length junk /\ left_over = b :: blocks \/
   length junk < behind /\ next = length junk + 8 * length asm + 8 * len /\ left_over = blocks) ->
  (forall q, behind <= q < next -> ~ occurs asm (bits bs) q) ->
  exists false_block items, yields biter_next (synchronize r asm len) (map Ok (false_block :: items)) /\
    bits (bl_data false_block) = firstn (8 * len) (skipn (f + 8 * length asm) (bits bs)) /\ map bl_data items = left_over.
Proof.
  intros asm len r bs junk b blocks tail f next lo Ha Hn Hb HD EB HB NT FJ FE behind CASES FREE.
  assert (LB : length (bits bs) = length junk + 8 * length asm + 8 * len + length (flat_map (cadu_bits asm) blocks ++ tail)).
  { rewrite EB. cbn [flat_map]. unfold cadu_bits at 1. inversion HB as [|? ? [_ Lb] _]; subst. rewrite !app_length, !bits_length. lia. }
  assert (FIT : behind <= length (bits bs)) by (unfold behind; lia).
  destruct (of_bits len (firstn (8 * len) (skipn (f + 8 * length asm) (bits bs)))) as (z & Bz & Ez).
  { rewrite firstn_length, skipn_length. unfold behind in FIT. lia. }
  set (l := loc_at (f + 8 * length asm)).
  assert (RUN : exists items, sync_run asm len (bits bs) next (l_offset l) (map Ok items) /\ map bl_data items = lo).
  { destruct CASES as [(_ & -> & ->)|(_ & -> & ->)].
    - exists (cadu_items asm len (length junk) (l_offset l) (b :: blocks)). split; [rewrite EB at 1; apply cadu_items_run; assumption|apply cadu_items_data].
    - inversion HB as [|? ? [Bo Lb] HB']; subst.
      assert (LJ : length (junk ++ cadu_bits asm b) = length junk + 8 * length asm + 8 * length b) by (unfold cadu_bits; rewrite !app_length, !bits_length; lia).
      exists (cadu_items asm (length b) (length (junk ++ cadu_bits asm b)) (l_offset l) blocks). split; [|apply cadu_items_data].
      rewrite <- LJ. replace (bits bs) with ((junk ++ cadu_bits asm b) ++ flat_map (cadu_bits asm) blocks ++ tail) by (rewrite EB; cbn [flat_map]; rewrite !app_assoc; reflexivity).
      apply cadu_items_run; assumption. }
  destruct RUN as (items & R & M).
  exists (mkBlock (if 0 =? 0 then 0 else l_offset l - 0) l z), items. split; [|split; [exact Ez|exact M]].
  apply (sync_iff asm len r bs _ Ha Hn Hb HD). cbn [map].
  eapply run_block with (p := f) (d := f + 8 * length asm); [exact FE|reflexivity|exact FIT|exact Bz|exact Ez|].
  apply (run_start asm len _ _ next _ _ FREE); [|exact R].
  fold behind. destruct CASES as [(C & -> & _)|(_ & -> & _)]; unfold behind in *; lia.
Qed.
Print Assumptions C107_false_marker.

(* But there is no way out of a false lock when every block holds the marker at the same place: a stream that is picked up within a block is cut at
   the inner markers to its end, and no block of it is returned, however long it is *)
Theorem C107_locked_out_refuted : forall asm len a c r bs junk y units x_last tail, bytes_ok asm -> asm <> [] -> bytes_ok bs -> delivers r bs ->
  a + length asm + c = len -> length y = c -> bytes_ok y -> length x_last = a -> bytes_ok x_last ->
  Forall (fun b => bytes_ok (fst b) /\ length (fst b) = a /\ bytes_ok (snd b) /\ length (snd b) = c) units ->
  bits bs = junk ++ bits (asm ++ y) ++ flat_map (cadu_bits asm) (map (holding asm) units) ++ cadu_bits asm x_last ++ tail ->
  (forall q, q < length junk -> ~ occurs asm (junk ++ bits asm) q) -> no_more asm tail 0 ->
  exists items, yields biter_next (synchronize r asm len) (map Ok items) /\ map bl_data items = between asm y units x_last.
Proof.
  intros asm len a c r bs junk y units x_last tail Ha Hn Hb HD LEN Ly By Lx Bx HU EB HJ NT.
  assert (X : forall units y, length y = c -> bytes_ok y -> Forall (fun b => bytes_ok (fst b) /\ length (fst b) = a /\ bytes_ok (snd b) /\ length (snd b) = c) units ->
    bits (asm ++ y) ++ flat_map (cadu_bits asm) (map (holding asm) units) ++ cadu_bits asm x_last = flat_map (cadu_bits asm) (between asm y units x_last) /\
    Forall (fun b => bytes_ok b /\ length b = len) (between asm y units x_last)).
  { clear EB HU y Ly By units. induction units as [|[x y'] us IH]; intros y Ly By HU.
    - cbn [map flat_map between app]. split; [unfold cadu_bits; rewrite !bits_app, app_nil_r, !app_assoc; reflexivity|]. constructor; [|constructor]. split.
      + apply bytes_ok_app. split; [exact By|]. apply bytes_ok_app. split; assumption.
      + rewrite !app_length. lia.
    - inversion HU as [|? ? (B1 & L1 & B2 & L2) HU']; subst. cbn [fst snd] in *. destruct (IH y' L2 B2 HU') as [E F].
      cbn [map flat_map between]. split.
      + rewrite <- E. unfold holding at 1. cbn [fst snd]. unfold cadu_bits. rewrite !bits_app, <- !app_assoc. reflexivity.
      + constructor; [|exact F]. split; [apply bytes_ok_app; split; [exact By|]; apply bytes_ok_app; split; assumption|]. rewrite !app_length. lia. }
  destruct (X units y Ly By HU) as [E F].
  apply (C25_cadu_round_trip asm len r bs junk (between asm y units x_last) tail Ha Hn Hb HD); try assumption.
  - rewrite EB, <- E, <- !app_assoc. reflexivity.
  - destruct units as [|[? ?] ?]; discriminate.
Qed.
Print Assumptions C107_locked_out_refuted.

(* ---- the hypotheses are met ---- *)
Lemma absent_check : forall asm B from n, forallb (fun q => if list_eq_dec Bool.bool_dec (firstn (8 * length asm) (skipn q B)) (bits asm) then false else true) (List.seq from n) = true ->
  forall q, from <= q < from + n -> ~ occurs asm B q.
Proof.
  intros asm B from n H q Q O. rewrite forallb_forall in H. specialize (H q ltac:(apply in_seq; exact Q)). unfold occurs in O.
  destruct (list_eq_dec _ _ _); [discriminate|contradiction].
Qed.
Lemma nothing_in_nothing : forall a asm, no_more (a :: asm) [] 0.
Proof. intros a asm q _ H. unfold occurs in H. rewrite skipn_nil, firstn_nil in H. apply (f_equal (@length bool)) in H. rewrite bits_length in H. cbn in H. discriminate. Qed.
(* both bytes of the second block damaged to the marker *)
Example C107_damaged_blocks_ex : exists items items',
  yields biter_next (synchronize (reader_of [171;1;2;171;3;4]%N) [171]%N 2) (map Ok items) /\
  yields biter_next (synchronize (reader_of [171;1;2;171;171;171]%N) [171]%N 2) (map Ok items') /\
  map bl_loc items = map bl_loc items' /\ map bl_data items = [[1;2];[3;4]]%N /\ map bl_data items' = [[1;2];[171;171]]%N.
Proof.
  destruct (C107_damaged_blocks [171]%N 2 (reader_of [171;1;2;171;3;4]%N) (reader_of [171;1;2;171;171;171]%N) [171;1;2;171;3;4]%N [171;1;2;171;171;171]%N
    [] [[1;2];[3;4]]%N [[1;2];[171;171]]%N []) as (i & i' & Y & Y' & F & D & D').
  - repeat constructor.
  - discriminate.
  - repeat constructor.
  - apply delivers_file. discriminate.
  - reflexivity.
  - repeat constructor.
  - apply delivers_file. discriminate.
  - reflexivity.
  - repeat constructor.
  - repeat constructor.
  - reflexivity.
  - intros q Hq. cbn in Hq. lia.
  - apply nothing_in_nothing.
  - discriminate.
  - exists i, i'. split; [exact Y|]. split; [exact Y'|]. split; [|split; assumption]. clear -F. induction F as [|b b' i i' [_ E] F IH]; [reflexivity|]. cbn. rewrite E, IH. reflexivity.
Qed.
(* a false marker two bytes before the first block: the first block is lost, the second is found *)
Example C107_false_marker_ex : exists z items, yields biter_next (synchronize (reader_of [171;7;171;1;2;171;3;4]%N) [171]%N 2) (map Ok (z :: items)) /\ map bl_data items = [[3;4]]%N.
Proof.
  destruct (C107_false_marker [171]%N 2 (reader_of [171;7;171;1;2;171;3;4]%N) [171;7;171;1;2;171;3;4]%N (bits [171;7]%N) [1;2]%N [[3;4]]%N [] 0 40 [[3;4]]%N) as (z & i & Y & _ & D).
  - repeat constructor.
  - discriminate.
  - repeat constructor.
  - apply delivers_file. discriminate.
  - reflexivity.
  - repeat constructor.
  - apply nothing_in_nothing.
  - cbn. lia.
  - split; [lia|]. split; [reflexivity|]. intros q Hq. lia.
  - right. split; [cbn; lia|]. split; reflexivity.
  - intros q Hq. apply (absent_check _ _ 24 16); [vm_compute; reflexivity|]. cbn in Hq. lia.
  - exists z, i. split; assumption.
Qed.
Example C107_locked_out_at : exists items, yields biter_next (synchronize (reader_of [171;1; 171;2;171;3; 171;4;171;5; 171;6]%N) [171]%N 3) (map Ok items) /\
  map bl_data items = [[1;171;2]; [3;171;4]; [5;171;6]]%N.
Proof.
  apply (C107_locked_out_refuted [171]%N 3 1 1 _ [171;1; 171;2;171;3; 171;4;171;5; 171;6]%N [] [1]%N [([2],[3]);([4],[5])]%N [6]%N []).
  - repeat constructor.
  - discriminate.
  - repeat constructor.
  - apply delivers_file. discriminate.
  - reflexivity.
  - reflexivity.
  - repeat constructor.
  - reflexivity.
  - repeat constructor.
  - repeat constructor.
  - reflexivity.
  - intros q Hq. cbn in Hq. lia.
  - apply nothing_in_nothing.
Qed.
