From Verif Require Import Base S_Bits M_Packet M_Timecode L_Base L_Bits.
Open Scope N_scope.

Lemma bits_firstn : forall n l, bits (firstn n l) = firstn (8 * n) (bits l).
Proof.
  induction n; intros l; [reflexivity|]. destruct l as [|x l]; [symmetry; apply firstn_nil|].
  replace (8 * S n)%nat with (8 + 8 * n)%nat by lia. cbn [firstn]. rewrite !bits_cons, IHn. reflexivity.
Qed.
Lemma bits_skipn : forall n l, bits (skipn n l) = skipn (8 * n) (bits l).
Proof.
  induction n; intros l; [reflexivity|]. destruct l as [|x l]; [symmetry; apply skipn_nil|].
  replace (8 * S n)%nat with (8 + 8 * n)%nat by lia. cbn [skipn]. rewrite !bits_cons, IHn. reflexivity.
Qed.
Lemma field_bytes : forall buf a b, bytes_ok buf -> field buf (8 * a) (8 * b) = be (firstn b (skipn a buf)).
Proof.
  intros. unfold field. rewrite <- bits_skipn, <- bits_firstn, val_bits; [reflexivity|].
  apply bytes_ok_firstn, bytes_ok_skipn. assumption.
Qed.
Lemma be_repeat0 : forall n l, be (repeat 0 n ++ l) = be l.
Proof. intros. unfold be. rewrite fold_left_app. f_equal. induction n; cbn; auto. Qed.

Lemma get4 : forall (l : list N) k, (k + 4 <= length l)%nat ->
  exists a b c d, get l k = Val a /\ get l (k + 1) = Val b /\ get l (k + 2) = Val c /\ get l (k + 3) = Val d /\
  firstn 4 (skipn k l) = [a; b; c; d].
Proof.
  intros l k H. assert (L := skipn_length k l).
  destruct (skipn k l) as [|a [|b [|c [|d t]]]] eqn:E; cbn in L; try lia.
  exists a, b, c, d.
  assert (forall i x, nth_error (a :: b :: c :: d :: t) i = Some x -> get l (k + i) = Val x).
  { intros i x Hx. apply get_some. rewrite <- E in Hx.
    rewrite <- (firstn_skipn k l), nth_error_app2; rewrite firstn_length, Nat.min_l by lia; [|lia].
    replace (k + i - k)%nat with i by lia. exact Hx. }
  rewrite <- (Nat.add_0_r k) at 1.
  repeat split; try (apply H0; reflexivity).
Qed.
Lemma get2 : forall (l : list N) k, (k + 2 <= length l)%nat ->
  exists a b, get l k = Val a /\ get l (k + 1) = Val b /\ firstn 2 (skipn k l) = [a; b].
Proof.
  intros l k H. assert (L := skipn_length k l).
  destruct (skipn k l) as [|a [|b t]] eqn:E; cbn in L; try lia.
  exists a, b.
  assert (forall i x, nth_error (a :: b :: t) i = Some x -> get l (k + i) = Val x).
  { intros i x Hx. apply get_some. rewrite <- E in Hx.
    rewrite <- (firstn_skipn k l), nth_error_app2; rewrite firstn_length, Nat.min_l by lia; [|lia].
    replace (k + i - k)%nat with i by lia. exact Hx. }
  rewrite <- (Nat.add_0_r k) at 1.
  repeat split; try (apply H0; reflexivity).
Qed.

(* the sub-millisecond part of decode_cds *)
Definition submillis (ovf : bool) (nd ns : nat) (buf : list N) : outcome (result N) :=
  match ns with
  | 0%nat => Val (Ok 0)
  | 2%nat => let* v := mul_w ovf 32 (field buf (8 * (nd + 4)) 16) 1000 in Val (Ok v)
  | 4%nat => let* v := mul_w ovf 32 (field buf (8 * (nd + 4)) 32) 1000000 in Val (Ok v)
  | _ => Val (Err TimecodeConfig)
  end.

Lemma decode_cds_gen : forall ovf nd ns buf, bytes_ok buf -> (nd <= 4)%nat ->
  (nd + ns + 4 <= length buf)%nat ->
  decode_cds ovf nd ns buf =
  let? nanos := submillis ovf nd ns buf in
  Val (Ok (mkEpoch UTC (compose (field buf 0 (8 * nd)) CCSDS_HIFIEPOCH_DELTA_SECS (field buf (8 * nd) 32) nanos))).
Proof.
  intros ovf nd ns buf Hb Hnd HL. unfold decode_cds, NUM_CDS_MILLIS_OF_DAY_BYTES.
  replace (length buf <? nd + ns + 4)%nat with false by (symmetry; apply Nat.ltb_ge; lia).
  rewrite slice0 by lia. cbn [obind]. rewrite slice_from_ok by lia. cbn [obind].
  rewrite usub_ok by lia. cbn [obind].
  set (db := repeat 0 (4 - nd) ++ firstn nd buf).
  assert (Ldb : length db = 4%nat) by (unfold db; rewrite app_length, repeat_length, firstn_length; lia).
  assert (Bdb : be db = field buf 0 (8 * nd)).
  { unfold db. rewrite be_repeat0. change 0%nat with (8 * 0)%nat at 1. rewrite field_bytes by assumption. reflexivity. }
  destruct (get4 db 0) as (d0 & d1 & d2 & d3 & G0 & G1 & G2 & G3 & F); [lia|].
  rewrite skipn_O, firstn_all2 in F by lia. cbn [Nat.add] in G1, G2, G3. rewrite G0, G1, G2, G3. cbn [obind].
  assert (D : be32 d0 d1 d2 d3 = field buf 0 (8 * nd)) by (rewrite be32_be, <- F; exact Bdb).
  rewrite D. clear G0 G1 G2 G3 F D.
  set (rest := skipn nd buf).
  assert (Lr : length rest = (length buf - nd)%nat) by (unfold rest; apply skipn_length).
  destruct (get4 rest 0) as (m0 & m1 & m2 & m3 & G0 & G1 & G2 & G3 & F); [lia|].
  cbn [Nat.add] in G1, G2, G3. rewrite G0, G1, G2, G3. cbn [obind].
  assert (D : be32 m0 m1 m2 m3 = field buf (8 * nd) 32).
  { rewrite be32_be, <- F. change 32%nat with (8 * 4)%nat. rewrite field_bytes by assumption. reflexivity. }
  rewrite D. clear G0 G1 G2 G3 F D.
  unfold submillis. destruct ns as [|[|[|[|[|ns]]]]]; try reflexivity.
  - destruct (get2 rest 4) as (a & b & G0 & G1 & F); [lia|]. cbn [Nat.add] in G1. rewrite G0, G1. cbn [obind].
    replace (be32 0 0 a b) with (field buf (8 * (nd + 4)) 16); [reflexivity|].
    change 16%nat with (8 * 2)%nat. rewrite field_bytes by assumption. rewrite (Nat.add_comm nd 4), <- skipn_skipn. fold rest. rewrite F.
    rewrite be32_be. unfold be. cbn [fold_left]. lia.
  - destruct (get4 rest 4) as (a & b & c & d & G0 & G1 & G2 & G3 & F); [lia|]. cbn [Nat.add] in G1, G2, G3. rewrite G0, G1, G2, G3. cbn [obind].
    replace (be32 a b c d) with (field buf (8 * (nd + 4)) 32); [reflexivity|].
    change 32%nat with (8 * 4)%nat. rewrite field_bytes by assumption. rewrite (Nat.add_comm nd 4), <- skipn_skipn. fold rest. rewrite F.
    rewrite be32_be. reflexivity.
Qed.

Lemma decode_cds_short : forall ovf nd ns buf, (length buf < nd + ns + 4)%nat ->
  decode_cds ovf nd ns buf = Val (Err (NotEnoughData (length buf) (nd + ns + 4))).
Proof.
  intros. unfold decode_cds, NUM_CDS_MILLIS_OF_DAY_BYTES. apply Nat.ltb_lt in H. rewrite H. reflexivity.
Qed.
Lemma decode_cds_wide : forall ovf nd ns buf, (4 < nd)%nat -> (nd + ns + 4 <= length buf)%nat ->
  decode_cds ovf nd ns buf = Panic.
Proof.
  intros. unfold decode_cds, NUM_CDS_MILLIS_OF_DAY_BYTES.
  replace (length buf <? nd + ns + 4)%nat with false by (symmetry; apply Nat.ltb_ge; lia).
  rewrite slice0 by lia. cbn [obind]. rewrite slice_from_ok by lia. cbn [obind].
  rewrite usub_panic by lia. reflexivity.
Qed.

Lemma mul_micros : forall ovf x, x < 65536 -> mul_w ovf 32 x 1000 = Val (x * 1000).
Proof. intros. unfold mul_w. change (2 ^ 32) with 4294967296. replace (x * 1000 <? 4294967296) with true by lia. reflexivity. Qed.

Lemma decode_cuc_gen : forall nc nf mult buf, bytes_ok buf -> (1 <= nc <= 4)%nat -> (nf <= 3)%nat ->
  (nc + nf <= length buf)%nat ->
  decode_cuc nc nf mult buf =
  Val (Ok (mkEpoch TAI (compose 0 (field buf 0 (8 * nc) + CCSDS_HIFIEPOCH_DELTA_SECS) 0
    (fine_product (field buf (8 * nc) (8 * nf)) (match mult with Some m => m | None => f32_one end))))).
Proof.
  intros nc nf mult buf Hb Hnc Hnf HL. unfold decode_cuc.
  replace (1 <=? nc)%nat with true by (symmetry; apply Nat.leb_le; lia).
  replace (nc <=? 4)%nat with true by (symmetry; apply Nat.leb_le; lia).
  replace (nf <=? 3)%nat with true by (symmetry; apply Nat.leb_le; lia).
  replace (length buf <? nc + nf)%nat with false by (symmetry; apply Nat.ltb_ge; lia).
  cbn [andb negb]. rewrite slice0 by lia. cbn [obind]. rewrite slice_from_ok by lia. cbn [obind].
  rewrite (usub_ok 8 nc) by lia. cbn [obind]. rewrite slice0 by (rewrite skipn_length; lia). cbn [obind].
  rewrite (usub_ok 8 nf) by lia. cbn [obind].
  change (@be_value) with be. rewrite !be_repeat0.
  rewrite field_bytes by assumption. change 0%nat with (8 * 0)%nat. rewrite field_bytes by assumption. reflexivity.
Qed.
Lemma decode_cuc_badwidth : forall nc nf mult buf, (nc = 0 \/ 4 < nc \/ 3 < nf)%nat ->
  decode_cuc nc nf mult buf = Val (Err TimecodeConfig).
Proof.
  intros nc nf mult buf H. unfold decode_cuc.
  destruct ((1 <=? nc)%nat && (nc <=? 4)%nat) eqn:E; [|reflexivity].
  apply andb_true_iff in E. destruct E as [E1 E2]. apply Nat.leb_le in E1, E2.
  replace (nf <=? 3)%nat with false by (symmetry; apply Nat.leb_gt; lia). reflexivity.
Qed.
Lemma decode_cuc_short : forall nc nf mult buf, (1 <= nc <= 4)%nat -> (nf <= 3)%nat ->
  (length buf < nc + nf)%nat ->
  decode_cuc nc nf mult buf = Val (Err (NotEnoughData (length buf) (nc + nf))).
Proof.
  intros nc nf mult buf Hnc Hnf HL. unfold decode_cuc.
  replace (1 <=? nc)%nat with true by (symmetry; apply Nat.leb_le; lia).
  replace (nc <=? 4)%nat with true by (symmetry; apply Nat.leb_le; lia).
  replace (nf <=? 3)%nat with true by (symmetry; apply Nat.leb_le; lia).
  apply Nat.ltb_lt in HL. rewrite HL. reflexivity.
Qed.

(* TimecodeDecoder *)
Fixpoint last_registered (a : N) (regs : list (format * list N)) (acc : option format) : option format :=
  match regs with
  | [] => acc
  | (f, apids) :: regs => last_registered a regs (if existsb (N.eqb a) apids then Some f else acc)
  end.
Lemma register_get : forall (f : format) apids (m : amap format) a,
  aget a (fold_left (fun m a => aset a f m) apids m) = if existsb (N.eqb a) apids then Some f else aget a m.
Proof.
  induction apids as [|b apids IH]; intros m a; cbn; [reflexivity|].
  rewrite IH, aget_aset. destruct (existsb (N.eqb a) apids); [rewrite orb_true_r; reflexivity|].
  rewrite orb_false_r. reflexivity.
Qed.
Lemma registers_get : forall regs t a,
  aget a (td_formats (fold_left (fun t r => tdecoder_register t (fst r) (snd r)) regs t)) =
  last_registered a regs (aget a (td_formats t)) /\
  td_default (fold_left (fun t r => tdecoder_register t (fst r) (snd r)) regs t) = td_default t.
Proof.
  induction regs as [|[f apids] regs IH]; intros t a; [auto|]. cbn [fold_left last_registered fst snd].
  destruct (IH (tdecoder_register t f apids) a) as [-> ->]. cbn [tdecoder_register td_formats td_default].
  rewrite register_get. auto.
Qed.
Lemma existsb_in : forall a l, existsb (N.eqb a) l = true <-> In a l.
Proof.
  intros. rewrite existsb_exists. split.
  - intros (x & I & E). apply N.eqb_eq in E. subst. exact I.
  - intro I. exists a. split; [exact I|apply N.eqb_refl].
Qed.
Lemma last_registered_none : forall a regs acc, (forall r, In r regs -> ~ In a (snd r)) ->
  last_registered a regs acc = acc.
Proof.
  induction regs as [|[f l] regs IH]; intros acc H; [reflexivity|]. cbn.
  rewrite IH by (intros; apply H; right; assumption).
  destruct (existsb (N.eqb a) l) eqn:E; [|reflexivity]. apply existsb_in in E. destruct (H (f, l)); [left; reflexivity|exact E].
Qed.
Lemma last_registered_some : forall a before f l after acc, In a l -> (forall r, In r after -> ~ In a (snd r)) ->
  last_registered a (before ++ (f, l) :: after) acc = Some f.
Proof.
  induction before as [|[g l'] before IH]; intros f l after acc I H.
  - cbn. apply existsb_in in I. rewrite I. apply last_registered_none. exact H.
  - cbn. apply IH; assumption.
Qed.
