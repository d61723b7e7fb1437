From Verif Require Import Base L_Base S_Bits L_Bits M_Reader M_Packet S_Packet L_Reader.
Open Scope N_scope.

Lemma six : forall buf : list N, (6 <= length buf)%nat ->
  exists b0 b1 b2 b3 b4 b5 rest, buf = b0 :: b1 :: b2 :: b3 :: b4 :: b5 :: rest.
Proof.
  intros buf H. do 6 (destruct buf as [|? buf]; [cbn in H; lia|]). repeat eexists.
Qed.

Lemma field2 : forall a b s n rest, a < 256 -> b < 256 -> (s + n <= 16)%nat ->
  field (a :: b :: rest) s n = (be16 a b / 2 ^ N.of_nat (16 - s - n)) mod 2 ^ N.of_nat n.
Proof.
  intros a b s n rest Ha Hb H. change (a :: b :: rest) with ([a; b] ++ rest).
  rewrite field_app_l by (cbn; lia). rewrite field_be by (cbn; try lia; repeat constructor; assumption).
  rewrite be16_be. reflexivity.
Qed.
Lemma field_skip2 : forall a b s n rest, field (a :: b :: rest) (16 + s) n = field rest s n.
Proof. intros. change (a :: b :: rest) with ([a; b] ++ rest). apply (field_app_r [a; b]). Qed.

Lemma header_decode_spec : forall buf, bytes_ok buf -> (6 <= length buf)%nat ->
  header_decode buf = Val (Ok (spec_header buf)).
Proof.
  intros buf Hb Hl. destruct (six buf Hl) as (b0 & b1 & b2 & b3 & b4 & b5 & rest & ->).
  unfold bytes_ok in Hb. repeat match goal with H : Forall _ (_ :: _) |- _ => inversion H; subst; clear H end.
  unfold header_decode. replace (length _ <? HDR_LEN)%nat with false by (symmetry; apply Nat.ltb_ge; exact Hl).
  cbn [get nth_error obind]. unfold spec_header.
  rewrite (field_skip2 _ _ 0), (field_skip2 _ _ 2), (field_skip2 _ _ 16), (field_skip2 _ _ 0).
  rewrite !field2 by (assumption || lia).
  assert (B1 := be16_bound b0 b1 ltac:(assumption) ltac:(assumption)).
  assert (B2 := be16_bound b2 b3 ltac:(assumption) ltac:(assumption)).
  assert (B3 := be16_bound b4 b5 ltac:(assumption) ltac:(assumption)).
  set (x := be16 b0 b1) in *. set (y := be16 b2 b3) in *. set (z := be16 b4 b5) in *.
  rewrite (shr_mask x 13 3), (shr_mask x 12 1), (shr_mask x 11 1), (and_mask x 11),
          (shr_mask y 14 2), (and_mask y 14) by reflexivity.
  change (N.of_nat (16 - 0 - 3)) with 13. change (N.of_nat (16 - 3 - 1)) with 12.
  change (N.of_nat (16 - 4 - 1)) with 11. change (N.of_nat (16 - 5 - 11)) with 0.
  change (N.of_nat (16 - 0 - 2)) with 14. change (N.of_nat (16 - 2 - 14)) with 0.
  change (N.of_nat (16 - 0 - 16)) with 0.
  change (N.of_nat 3) with 3. change (N.of_nat 1) with 1. change (N.of_nat 11) with 11.
  change (N.of_nat 2) with 2. change (N.of_nat 14) with 14. change (N.of_nat 16) with 16.
  change (2 ^ 0) with 1. rewrite !N.div_1_r.
  unfold as_u8.
  assert (E : forall v k, k <= 8 -> v mod 2 ^ k mod 256 = v mod 2 ^ k).
  { intros v k Hk. apply N.mod_small. eapply N.lt_le_trans; [apply N.mod_lt, N.pow_nonzero; lia|].
    change 256 with (2 ^ 8). apply N.pow_le_mono_r; lia. }
  rewrite !E by lia.
  do 3 f_equal. symmetry. apply N.mod_small. exact B3.
Qed.

Lemma header_decode_short : forall buf, (length buf < 6)%nat ->
  header_decode buf = Val (Err (NotEnoughData (length buf) 6)).
Proof.
  intros. unfold header_decode. replace (length buf <? HDR_LEN)%nat with true by (symmetry; apply Nat.ltb_lt; exact H).
  reflexivity.
Qed.

Lemma spec_header_app : forall a b, (6 <= length a)%nat -> spec_header (a ++ b) = spec_header a.
Proof. intros. unfold spec_header. rewrite !field_app_l by lia. reflexivity. Qed.
Lemma spec_header_firstn : forall n a, (6 <= n)%nat -> (6 <= length a)%nat -> spec_header (firstn n a) = spec_header a.
Proof.
  intros. rewrite <- (firstn_skipn n a) at 2. rewrite spec_header_app; [reflexivity|]. rewrite firstn_length. lia.
Qed.
Lemma spec_header_ok : forall buf, header_ok (spec_header buf).
Proof.
  intros. unfold header_ok, spec_header. cbn [version type_flag apid sequence_flags sequence_id len_minus1].
  repeat split.
  - apply (field_bound buf 0 3).
  - apply (field_bound buf 3 1).
  - apply (field_bound buf 5 11).
  - apply (field_bound buf 16 2).
  - apply (field_bound buf 18 14).
  - apply (field_bound buf 32 16).
Qed.

Lemma encode_bytes_ok : forall h, header_ok h -> bytes_ok (encode_header h).
Proof.
  intros h (V & T & A & F & S & L). unfold encode_header, bytes_ok.
  assert (forall x, x < 65536 -> x / 256 < 256) by (intros; apply N.div_lt_upper_bound; lia).
  assert (forall x, x mod 256 < 256) by (intros; apply N.mod_lt; lia).
  repeat constructor; auto; apply H; destruct (has_secondary_header h); lia.
Qed.
Lemma encode_length : forall h, length (encode_header h) = 6%nat. Proof. reflexivity. Qed.

Lemma spec_header_encode : forall h rest, header_ok h -> spec_header (encode_header h ++ rest) = h.
Proof.
  intros h rest Hok. rewrite spec_header_app by (rewrite encode_length; lia).
  assert (Hb := encode_bytes_ok h Hok). destruct Hok as (V & T & A & F & S & L).
  unfold spec_header. set (e := encode_header h) in *. unfold encode_header in e.
  set (w1 := version h * 8192 + type_flag h * 4096 + (if has_secondary_header h then 2048 else 0) + apid h) in *.
  set (w2 := sequence_flags h * 16384 + sequence_id h) in *.
  unfold bytes_ok, e in Hb. repeat match goal with H : Forall _ (_ :: _) |- _ => inversion H; subst; clear H end.
  unfold e. rewrite (field_skip2 _ _ 0), (field_skip2 _ _ 2), (field_skip2 _ _ 16), (field_skip2 _ _ 0).
  rewrite !field2 by (assumption || lia).
  assert (W : forall w, be16 (w / 256) (w mod 256) = w).
  { intros. unfold be16. symmetry. apply N.div_mod. lia. }
  rewrite !W. cbn [Nat.sub].
  change (N.of_nat 13) with 13. change (N.of_nat 12) with 12. change (N.of_nat 11) with 11.
  change (N.of_nat 0) with 0. change (N.of_nat 14) with 14. change (N.of_nat 3) with 3.
  change (N.of_nat 1) with 1. change (N.of_nat 2) with 2. change (N.of_nat 16) with 16.
  change (2 ^ 0) with 1. rewrite !N.div_1_r.
  change (2 ^ 13) with 8192. change (2 ^ 12) with 4096. change (2 ^ 11) with 2048. change (2 ^ 14) with 16384.
  change (2 ^ 3) with 8. change (2 ^ 1) with 2. change (2 ^ 2) with 4. change (2 ^ 16) with 65536.
  set (s := if has_secondary_header h then 2048 else 0) in *.
  assert (Hs : s = 0 /\ s / 2048 = 0 \/ s = 2048 /\ s / 2048 = 1) by (unfold s; destruct (has_secondary_header h); auto).
  assert (Hw1 : w1 = version h * 8192 + type_flag h * 4096 + s + apid h) by reflexivity.
  assert (Hw2 : w2 = sequence_flags h * 16384 + sequence_id h) by reflexivity.
  assert (Hse : (s / 2048) mod 2 =? 1 = has_secondary_header h) by (unfold s; destruct (has_secondary_header h); reflexivity).
  clearbody w1 w2 s. generalize dependent (s / 2048). intros q Hs Hse.
  assert (E1 : w1 / 8192 = version h) by (symmetry; apply N.div_unique with (type_flag h * 4096 + s + apid h); lia).
  assert (E2 : w1 / 4096 = version h * 2 + type_flag h) by (symmetry; apply N.div_unique with (s + apid h); lia).
  assert (E3 : w1 / 2048 = version h * 4 + type_flag h * 2 + q).
  { symmetry; apply N.div_unique with (apid h); lia. }
  assert (E4 : w1 mod 2048 = apid h).
  { symmetry; apply N.mod_unique with (version h * 4 + type_flag h * 2 + q); lia. }
  assert (E5 : w2 / 16384 = sequence_flags h) by (symmetry; apply N.div_unique with (sequence_id h); lia).
  assert (E6 : w2 mod 16384 = sequence_id h) by (symmetry; apply N.mod_unique with (sequence_flags h); lia).
  rewrite E1, E2, E3, E4, E5, E6.
  rewrite (N.mod_small (version h)), (N.mod_small (sequence_flags h)), (N.mod_small (len_minus1 h)) by assumption.
  replace ((version h * 2 + type_flag h) mod 2) with (type_flag h)
    by (rewrite N.add_comm, N.mod_add by lia; symmetry; apply N.mod_small; assumption).
  replace ((version h * 4 + type_flag h * 2 + q) mod 2 =? 1) with (has_secondary_header h).
  - destruct h; reflexivity.
  - replace (version h * 4 + type_flag h * 2 + q) with (q + (version h * 2 + type_flag h) * 2) by lia.
    rewrite N.mod_add by lia. symmetry. exact Hse.
Qed.

Lemma spec_header_inj : forall a b, bytes_ok a -> bytes_ok b -> length a = 6%nat -> length b = 6%nat ->
  spec_header a = spec_header b -> a = b.
Proof.
  intros a b Ha Hb La Lb H.
  assert (La' : length (bits a) = 48%nat) by (rewrite bits_length; lia).
  assert (Lb' : length (bits b) = 48%nat) by (rewrite bits_length; lia).
  apply bits_inj; [assumption..|].
  assert (F : forall s n, (s + n <= 48)%nat -> field a s n = field b s n ->
     firstn n (skipn s (bits a)) = firstn n (skipn s (bits b))).
  { intros s n Hs HF. apply val_inj; [|exact HF]. rewrite !firstn_length, !skipn_length. lia. }
  unfold spec_header in H. injection H; intros H7 H6 H5 H4 H3 H2 H1. clear H.
  assert (H3' : field a 4 1 = field b 4 1).
  { assert (A := field_bound a 4 1). assert (B := field_bound b 4 1). change (2 ^ N.of_nat 1) with 2 in A, B.
    destruct (N.eqb_spec (field a 4 1) 1), (N.eqb_spec (field b 4 1) 1); try congruence. lia. }
  assert (J : forall (l : list bool), length l = 48%nat ->
     l = firstn 3 (skipn 0 l) ++ firstn 1 (skipn 3 l) ++ firstn 1 (skipn 4 l) ++ firstn 11 (skipn 5 l) ++
         firstn 2 (skipn 16 l) ++ firstn 14 (skipn 18 l) ++ firstn 16 (skipn 32 l)).
  { intros l Hl. do 48 (destruct l as [|? l]; [discriminate|]). destruct l; [reflexivity|discriminate]. }
  rewrite (J (bits a) La'), (J (bits b) Lb').
  rewrite !(F _ _) by (assumption || lia). reflexivity.
Qed.

(* ---- Packet::decode ---- *)
Lemma total_len_spec : forall buf, total_len (spec_header buf) = wire_len buf.
Proof. intros. unfold total_len, wire_len, HDR_LEN, spec_header. cbn [len_minus1]. lia. Qed.
Lemma wire_len_app : forall a b, (6 <= length a)%nat -> wire_len (a ++ b) = wire_len a.
Proof. intros. unfold wire_len. rewrite field_app_l by lia. reflexivity. Qed.
Lemma wire_len_ge : forall a, (7 <= wire_len a)%nat. Proof. intros. unfold wire_len. lia. Qed.

Lemma packet_decode_spec : forall buf, bytes_ok buf ->
  packet_decode buf =
  if (length buf <? 6)%nat then Val (Err (NotEnoughData (length buf) 6))
  else if (length buf <? wire_len buf)%nat then Val (Err (NotEnoughData (length buf) (wire_len buf)))
  else Val (Ok (mkPacket (spec_header buf) (firstn (wire_len buf) buf) 0)).
Proof.
  intros buf Hb. unfold packet_decode. change HDR_LEN with 6%nat.
  destruct (length buf <? 6)%nat eqn:E; [reflexivity|]. apply Nat.ltb_ge in E.
  rewrite slice0 by lia. cbn [obind].
  rewrite header_decode_spec by (try apply bytes_ok_firstn; try rewrite firstn_length; assumption || lia).
  cbn [rbind]. rewrite spec_header_firstn by lia. rewrite total_len_spec.
  destruct (length buf <? wire_len buf)%nat eqn:E2; [reflexivity|]. apply Nat.ltb_ge in E2.
  rewrite slice0 by lia. reflexivity.
Qed.

(* ---- decode_packets on tokens ---- *)
Definition tbytes_ok (ts : list token) : Prop := Forall (fun t => match t with TByte b => b < 256 | _ => True end) ts.
Lemma tbytes_ok_app : forall a b, tbytes_ok (a ++ b) <-> tbytes_ok a /\ tbytes_ok b.
Proof. intros. apply Forall_app. Qed.
Lemma tbytes_ok_map : forall bs, tbytes_ok (map TByte bs) <-> bytes_ok bs.
Proof. intros. unfold tbytes_ok, bytes_ok. rewrite Forall_map. reflexivity. Qed.

Record ptok : Type := mkPtok { pk_toks : list token; pk_fin : final; pk_off : nat }.
Definition ptok_next (s : ptok) : outcome (option (result packet) * ptok) :=
  let stop k ts := match k with
    | UnexpectedEof => Val (None, mkPtok ts (pk_fin s) (pk_off s))
    | k => Val (Some (Err (Io k)), mkPtok ts (pk_fin s) (pk_off s)) end in
  match re_tok 6 (pk_toks s) (pk_fin s) with
  | (_, Some k, ts) => stop k ts
  | (hd, None, ts) =>
      if (wire_len hd <=? MAX_LEN)%nat then
        match re_tok (wire_len hd - 6) ts (pk_fin s) with
        | (_, Some k, ts) => stop k ts
        | (body, None, ts) =>
            Val (Some (Ok (mkPacket (spec_header hd) (hd ++ body) (pk_off s))),
                 mkPtok ts (pk_fin s) (pk_off s + wire_len hd))
        end
      else Panic
  end.

Definition ptok_of (s : pdec) : ptok := mkPtok (transcript (evs (pd_reader s))) (fin (pd_reader s)) (pd_offset s).

Lemma read_exact_tok' : forall n r got st r',
  read_exact n r = (got, st, r') ->
  re_tok n (transcript (evs r)) (fin r) = (got, st, transcript (evs r')) /\ fin r' = fin r.
Proof.
  intros n r got st r' H. unfold read_exact in H.
  destruct (read_exact_evs n (evs r) (fin r)) as [[g s] e] eqn:E. injection H; intros; subst.
  split; [apply read_exact_tok in E; exact E|reflexivity].
Qed.

Definition omap_st {A S T} (f : S -> T) (o : outcome (A * S)) : outcome (A * T) :=
  match o with Val (a, s) => Val (a, f s) | Panic => Panic end.

Lemma pdec_ptok : forall s, tbytes_ok (transcript (evs (pd_reader s))) ->
  omap_st ptok_of (pdec_next s) = ptok_next (ptok_of s).
Proof.
  intros s Hok. unfold pdec_next, packet_read, ptok_next. change HDR_LEN with 6%nat.
  destruct (read_exact 6 (pd_reader s)) as [[hd st] r1] eqn:R1.
  apply read_exact_tok' in R1. destruct R1 as [R1 F1].
  replace (re_tok 6 (pk_toks (ptok_of s)) (pk_fin (ptok_of s))) with (hd, st, transcript (evs r1)) by (symmetry; exact R1). cbn [ptok_of pk_toks pk_fin pk_off]. destruct st as [k|].
  - cbn [obind]. destruct k; cbn; unfold ptok_of; cbn; rewrite F1; reflexivity.
  - apply re_tok_some in R1 as R1s. destruct R1s as [L6 ET].
    assert (Hbh : bytes_ok hd) by (rewrite ET in Hok; apply tbytes_ok_app in Hok; apply tbytes_ok_map; tauto).
    rewrite header_decode_spec by (assumption || lia). cbn [obind].
    rewrite total_len_spec.
    destruct (wire_len hd <=? MAX_LEN)%nat; [|reflexivity].
    destruct (read_exact (wire_len hd - 6) r1) as [[body st2] r2] eqn:R2.
    apply read_exact_tok' in R2. destruct R2 as [R2 F2]. rewrite F1 in R2. rewrite R2.
    destruct st2 as [k|]; cbn [obind].
    + destruct k; cbn; unfold ptok_of; cbn; rewrite F2, F1; reflexivity.
    + cbn [omap_st p_header p_data len_minus1 spec_header]. unfold ptok_of. cbn [pd_reader pd_offset]. rewrite F2, F1.
      unfold wire_len. do 3 f_equal; try reflexivity. lia.
Qed.

Lemma re_tok_ok : forall n ts f g s ts', re_tok n ts f = (g, s, ts') -> tbytes_ok ts -> tbytes_ok ts' /\ bytes_ok g.
Proof.
  intros n ts f g s ts' H Hok. apply re_tok_some in H. destruct s.
  - destruct H as [_ [->|[[-> _]|(-> & -> & _)]]].
    + apply tbytes_ok_app in Hok. destruct Hok as [A B]. inversion B; subst. split; [assumption|apply tbytes_ok_map; assumption].
    + apply tbytes_ok_app in Hok. destruct Hok as [A B]. inversion B; subst. split; [assumption|apply tbytes_ok_map; assumption].
    + split; [constructor|apply tbytes_ok_map; assumption].
  - destruct H as [_ ->]. apply tbytes_ok_app in Hok. rewrite tbytes_ok_map in Hok. tauto.
Qed.

Lemma ptok_next_ok : forall s o s', ptok_next s = Val (o, s') -> tbytes_ok (pk_toks s) -> tbytes_ok (pk_toks s').
Proof.
  intros s o s' H Hok. unfold ptok_next in H.
  destruct (re_tok 6 (pk_toks s) (pk_fin s)) as [[hd st] ts] eqn:R1. apply re_tok_ok in R1; [|assumption].
  destruct st as [k|].
  - destruct k; injection H; intros; subst; cbn; tauto.
  - destruct (wire_len hd <=? MAX_LEN)%nat; [|discriminate].
    destruct (re_tok _ ts (pk_fin s)) as [[body st2] ts2] eqn:R2. apply re_tok_ok in R2; [|tauto].
    destruct st2 as [k|]; [destruct k|]; injection H; intros; subst; cbn; tauto.
Qed.

(* simulation between iterators *)
Lemma yields_sim : forall S T A (next : S -> outcome (option A * S)) (next' : T -> outcome (option A * T))
    (phi : S -> T) (P : S -> Prop),
  (forall s, P s -> omap_st phi (next s) = next' (phi s)) ->
  (forall s o s', P s -> next s = Val (o, s') -> P s') ->
  forall s l, P s -> (yields next s l <-> yields next' (phi s) l).
Proof.
  intros S T A next next' phi P Hsim Hinv s l Hp. split.
  - intro H. induction H.
    + assert (E := Hsim s Hp). rewrite H in E. cbn in E. eapply yields_nil. symmetry. exact E.
    + assert (E := Hsim s Hp). rewrite H in E. cbn in E. eapply yields_cons; [symmetry; exact E|].
      apply IHyields. eapply Hinv; eauto.
  - intro H. remember (phi s) as t eqn:Et. revert s Hp Et. induction H; intros s0 Hp Et; subst.
    + assert (E := Hsim s0 Hp). rewrite H in E. destruct (next s0) as [[o s1]|] eqn:N; [|discriminate].
      cbn in E. injection E; intros; subst. eapply yields_nil. exact N.
    + assert (E := Hsim s0 Hp). rewrite H in E. destruct (next s0) as [[o s1]|] eqn:N; [|discriminate].
      cbn in E. injection E; intros; subst. eapply yields_cons; [exact N|]. eapply IHyields; eauto.
Qed.
Lemma panics_sim : forall S T A (next : S -> outcome (option A * S)) (next' : T -> outcome (option A * T))
    (phi : S -> T) (P : S -> Prop),
  (forall s, P s -> omap_st phi (next s) = next' (phi s)) ->
  (forall s o s', P s -> next s = Val (o, s') -> P s') ->
  forall s l, P s -> (panics_after next s l <-> panics_after next' (phi s) l).
Proof.
  intros S T A next next' phi P Hsim Hinv s l Hp. split.
  - intro H. induction H.
    + assert (E := Hsim s Hp). rewrite H in E. cbn in E. apply panics_nil. symmetry. exact E.
    + assert (E := Hsim s Hp). rewrite H in E. cbn in E. eapply panics_cons; [symmetry; exact E|].
      apply IHpanics_after. eapply Hinv; eauto.
  - intro H. remember (phi s) as t eqn:Et. revert s Hp Et. induction H; intros s0 Hp Et; subst.
    + assert (E := Hsim s0 Hp). rewrite H in E. destruct (next s0) as [[o s1]|] eqn:N; [discriminate|].
      apply panics_nil. exact N.
    + assert (E := Hsim s0 Hp). rewrite H in E. destruct (next s0) as [[o s1]|] eqn:N; [|discriminate].
      cbn in E. injection E; intros; subst. eapply panics_cons; [exact N|]. eapply IHpanics_after; eauto.
Qed.

Definition pd_ok (s : pdec) : Prop := tbytes_ok (transcript (evs (pd_reader s))).
Lemma pd_ok_step : forall s o s', pd_ok s -> pdec_next s = Val (o, s') -> pd_ok s'.
Proof.
  intros s o s' Hp H. assert (E := pdec_ptok s Hp). rewrite H in E. cbn in E. symmetry in E.
  apply ptok_next_ok in E; [exact E|exact Hp].
Qed.
Lemma pdec_yields : forall s l, pd_ok s -> (yields pdec_next s l <-> yields ptok_next (ptok_of s) l).
Proof. intros. apply yields_sim with (P := pd_ok); auto using pdec_ptok. apply pd_ok_step. Qed.
Lemma pdec_panics : forall s l, pd_ok s -> (panics_after pdec_next s l <-> panics_after ptok_next (ptok_of s) l).
Proof. intros. apply panics_sim with (P := pd_ok); auto using pdec_ptok. apply pd_ok_step. Qed.

(* one complete packet in front *)
Lemma ptok_packet : forall bs ts f off, bytes_ok bs -> (6 <= length bs)%nat -> length bs = wire_len bs ->
  (wire_len bs <= MAX_LEN)%nat ->
  ptok_next (mkPtok (map TByte bs ++ ts) f off) =
  Val (Some (Ok (mkPacket (spec_header bs) bs off)), mkPtok ts f (off + length bs)).
Proof.
  intros bs ts f off Hb L6 LW LM. unfold ptok_next. cbn [pk_toks pk_fin pk_off].
  assert (W : wire_len (firstn 6 bs) = wire_len bs).
  { rewrite <- (firstn_skipn 6 bs) at 2. rewrite wire_len_app; [reflexivity|]. rewrite firstn_length; lia. }
  rewrite <- (firstn_skipn 6 bs) at 1. rewrite map_app, <- app_assoc.
  assert (L : length (firstn 6 bs) = 6%nat) by (rewrite firstn_length; lia).
  replace (re_tok 6) with (re_tok (length (firstn 6 bs))) by (rewrite L; reflexivity).
  rewrite re_tok_exact. rewrite W. apply Nat.leb_le in LM. rewrite LM.
  replace (wire_len bs - 6)%nat with (length (skipn 6 bs)) by (rewrite skipn_length; lia).
  rewrite re_tok_exact. rewrite firstn_skipn, spec_header_firstn by lia. rewrite LW. reflexivity.
Qed.

(* an incomplete packet in front, then something that is not a byte *)
Lemma re_tok_short : forall g n ts f, (length g < n)%nat ->
  re_tok n (map TByte g ++ ts) f = let '(g', s, ts') := re_tok (n - length g) ts f in (g ++ g', s, ts').
Proof. intros. apply re_tok_bytes. lia. Qed.

Definition stop_of (ts : list token) (f : final) : option (iokind * list token) :=
  match ts with
  | [] => Some (match f with AtEof => UnexpectedEof | Failing c => OtherIo c end, [])
  | TErr k :: ts => Some (k, ts)
  | TEof :: ts => Some (UnexpectedEof, ts)
  | TByte _ :: _ => None
  end.
Lemma re_tok_stop : forall n ts f k ts', stop_of ts f = Some (k, ts') -> (0 < n)%nat ->
  re_tok n ts f = ([], Some k, ts').
Proof.
  intros n ts f k ts' H Hn. destruct n; [lia|]. cbn. destruct ts as [|t ts]; cbn in H.
  - injection H; intros; subst. reflexivity.
  - destruct t; try discriminate; injection H; intros; subst; reflexivity.
Qed.
Lemma ptok_incomplete : forall bs ts f off k ts', bytes_ok bs -> incomplete bs ->
  ((6 <= length bs)%nat -> (wire_len bs <= MAX_LEN)%nat) ->
  stop_of ts f = Some (k, ts') ->
  ptok_next (mkPtok (map TByte bs ++ ts) f off) =
  Val (match k with UnexpectedEof => None | _ => Some (Err (Io k)) end, mkPtok ts' f off).
Proof.
  intros bs ts f off k ts' Hb Hi HM Hs. unfold ptok_next. cbn [pk_toks pk_fin pk_off].
  destruct (Nat.lt_ge_cases (length bs) 6) as [L|L].
  - rewrite re_tok_short by lia. rewrite (re_tok_stop _ _ _ _ _ Hs) by lia. destruct k; reflexivity.
  - assert (W : wire_len (firstn 6 bs) = wire_len bs).
    { rewrite <- (firstn_skipn 6 bs) at 2. rewrite wire_len_app; [reflexivity|]. rewrite firstn_length; lia. }
    rewrite <- (firstn_skipn 6 bs) at 1. rewrite map_app, <- app_assoc.
    assert (L6 : length (firstn 6 bs) = 6%nat) by (rewrite firstn_length; lia).
    replace (re_tok 6) with (re_tok (length (firstn 6 bs))) by (rewrite L6; reflexivity).
    rewrite re_tok_exact. rewrite W. specialize (HM L). apply Nat.leb_le in HM. rewrite HM.
    destruct Hi as [Hi|Hi]; [lia|].
    rewrite re_tok_short by (rewrite skipn_length; lia).
    rewrite (re_tok_stop _ _ _ _ _ Hs) by (rewrite skipn_length; lia). destruct k; reflexivity.
Qed.

(* exact description of a call *)
Lemma ptok_panic_iff : forall s,
  ptok_next s = Panic <->
  exists hd ts, pk_toks s = map TByte hd ++ ts /\ length hd = 6%nat /\ (MAX_LEN < wire_len hd)%nat.
Proof.
  intros s. unfold ptok_next. split.
  - destruct (re_tok 6 (pk_toks s) (pk_fin s)) as [[hd st] ts] eqn:R1. apply re_tok_some in R1.
    destruct st as [k|]; [destruct k; discriminate|].
    destruct (wire_len hd <=? MAX_LEN)%nat eqn:E.
    + destruct (re_tok _ ts _) as [[body st2] ts2]. destruct st2 as [k|]; [destruct k|]; discriminate.
    + intros _. apply Nat.leb_gt in E. exists hd, ts. tauto.
  - intros (hd & ts & E & L & M). rewrite E. replace 6%nat with (length hd) at 1. rewrite re_tok_exact.
    apply Nat.leb_gt in M. rewrite M. reflexivity.
Qed.

(* measure: every call that does not end consumes a token, or the reader is exhausted and failing *)
Lemma re_tok_len : forall n ts f g s ts', re_tok n ts f = (g, s, ts') -> (length ts' <= length ts)%nat.
Proof.
  induction n; intros ts f g s ts' H; cbn in H.
  - injection H; intros; subst. lia.
  - destruct ts as [|t ts]; [injection H; intros; subst; cbn; lia|].
    destruct t.
    + destruct (re_tok n ts f) as [[g1 s1] t1] eqn:R. injection H; intros; subst. apply IHn in R. cbn. lia.
    + injection H; intros; subst. cbn. lia.
    + injection H; intros; subst. cbn. lia.
Qed.
Lemma re_tok_len_S : forall n ts f g s ts', re_tok (S n) ts f = (g, s, ts') -> ts <> [] -> (length ts' < length ts)%nat.
Proof.
  intros n ts f g s ts' H Hn. cbn in H. destruct ts as [|t ts]; [congruence|].
  destruct t.
  - destruct (re_tok n ts f) as [[g1 s1] t1] eqn:R. injection H; intros; subst. apply re_tok_len in R. cbn. lia.
  - injection H; intros; subst. cbn. lia.
  - injection H; intros; subst. cbn. lia.
Qed.
Lemma ptok_step_len : forall s o s', ptok_next s = Val (Some o, s') ->
  pk_fin s' = pk_fin s /\
  ((length (pk_toks s') < length (pk_toks s))%nat
   \/ (pk_toks s = [] /\ exists c, pk_fin s = Failing c)).
Proof.
  intros s o s' H. unfold ptok_next in H.
  destruct (re_tok 6 (pk_toks s) (pk_fin s)) as [[hd st] ts] eqn:R1.
  destruct (pk_toks s) as [|t0 tt] eqn:ET.
  - cbn in R1. injection R1; intros; subst. destruct (pk_fin s) eqn:EF; [discriminate|].
    injection H; intros; subst. cbn. split; [reflexivity|]. right. eauto.
  - assert (L : (length ts < length (t0 :: tt))%nat) by (eapply (re_tok_len_S 5); [exact R1|discriminate]).
    destruct st as [k|].
    + destruct k; try discriminate; injection H; intros; subst; cbn [pk_toks pk_fin]; auto.
    + destruct (wire_len hd <=? MAX_LEN)%nat; [|discriminate].
      destruct (re_tok (wire_len hd - 6) ts (pk_fin s)) as [[body st2] ts2] eqn:R2. apply re_tok_len in R2.
      destruct st2 as [k|]; [destruct k; try discriminate|]; injection H; intros; subst; cbn [pk_toks pk_fin]; split; auto; left; lia.
Qed.

(* ---- results used by P_Packet.v ---- *)
Lemma max_len_spec : forall n, (n <= MAX_LEN)%nat <-> N.of_nat n <= 65536.
Proof. intros. unfold MAX_LEN. split; intro; lia. Qed.
Lemma wire_bytes_props : forall w, wire_ok w ->
  bytes_ok (wire_bytes w) /\ (7 <= length (wire_bytes w))%nat /\ wire_len (wire_bytes w) = length (wire_bytes w)
  /\ spec_header (wire_bytes w) = w_header w.
Proof.
  intros w (Hh & Hb & Hl). unfold wire_bytes.
  assert (E := spec_header_encode (w_header w) (w_body w) Hh).
  assert (F : field (encode_header (w_header w) ++ w_body w) 32 16 = len_minus1 (w_header w)).
  { rewrite <- E at 2. reflexivity. }
  repeat split.
  - apply bytes_ok_app. split; [apply encode_bytes_ok; assumption|assumption].
  - rewrite app_length, encode_length. lia.
  - unfold wire_len. rewrite F, app_length, encode_length. lia.
  - exact E.
Qed.

Lemma concat_wire_ok : forall ws, Forall wire_ok ws -> bytes_ok (concat (map wire_bytes ws)).
Proof.
  intros ws Hok. induction Hok; cbn [map concat]; [constructor|]. apply bytes_ok_app. split; [|assumption].
  apply wire_bytes_props; assumption.
Qed.


Lemma ptok_roundtrip : forall ws off f ts,
  Forall wire_ok ws -> Forall (fun w => N.of_nat (length (wire_bytes w)) <= 65536) ws ->
  forall l, yields ptok_next (mkPtok ts f (off + length (concat (map wire_bytes ws)))) l ->
  yields ptok_next (mkPtok (map TByte (concat (map wire_bytes ws)) ++ ts) f off)
         (map Ok (packets_at off ws) ++ l).
Proof.
  induction ws as [|w ws IH]; intros off f ts Hok Hlen l Hl.
  - cbn in *. rewrite Nat.add_0_r in Hl. exact Hl.
  - inversion Hok; inversion Hlen; subst. cbn [map concat packets_at app].
    destruct (wire_bytes_props w H1) as (Hb & L7 & LW & HH).
    rewrite map_app, <- app_assoc.
    eapply yields_cons.
    + rewrite ptok_packet; [rewrite HH; reflexivity|assumption|lia|lia|].
      rewrite LW. apply max_len_spec. assumption.
    + apply IH; [assumption..|]. cbn [map concat] in Hl. rewrite app_length in Hl.
      rewrite Nat.add_assoc in Hl. exact Hl.
Qed.

Lemma ptok_tail_ends : forall tail off, bytes_ok tail -> incomplete tail ->
  ((6 <= length tail)%nat -> N.of_nat (wire_len tail) <= 65536) ->
  yields ptok_next (mkPtok (map TByte tail) AtEof off) [].
Proof.
  intros tail off Hb Hi HM. eapply yields_nil. rewrite <- (app_nil_r (map TByte tail)).
  rewrite ptok_incomplete with (k := UnexpectedEof) (ts' := []); try assumption; try reflexivity.
  intro. apply max_len_spec. auto.
Qed.

Lemma decode_stream : forall ws tail r,
  Forall wire_ok ws -> Forall (fun w => N.of_nat (length (wire_bytes w)) <= 65536) ws ->
  bytes_ok tail -> incomplete tail -> ((6 <= length tail)%nat -> N.of_nat (wire_len tail) <= 65536) ->
  transcript (evs r) = map TByte (concat (map wire_bytes ws) ++ tail) -> fin r = AtEof ->
  yields pdec_next (pdec_new r) (map Ok (packets_at 0 ws)).
Proof.
  intros ws tail r Hok Hlen Hb Hi HM HT HF.
  apply pdec_yields.
  - unfold pd_ok. cbn. rewrite HT. apply tbytes_ok_map, bytes_ok_app. split; [|assumption].
    apply concat_wire_ok. assumption.
  - unfold ptok_of. cbn [pd_reader pd_offset pdec_new]. rewrite HT, HF, map_app.
    rewrite <- (app_nil_r (map Ok (packets_at 0 ws))). apply ptok_roundtrip; [assumption..|].
    cbn [Nat.add]. apply ptok_tail_ends; assumption.
Qed.

Lemma incomplete_nil : incomplete []. Proof. left. cbn. lia. Qed.

Lemma transcript_reader_of_yields : forall bs l,
  bytes_ok bs ->
  (yields pdec_next (pdec_new (reader_of bs)) l <-> yields pdec_next (pdec_new (mkReader (match bs with [] => [] | _ => [EvData bs] end) AtEof)) l).
Proof.
  intros bs l Hb. destruct bs as [|b bs]; [|reflexivity].
  assert (A : yields pdec_next (pdec_new (reader_of [])) []) by (eapply yields_nil; reflexivity).
  assert (B : yields pdec_next (pdec_new (mkReader [] AtEof)) []) by (eapply yields_nil; reflexivity).
  split; intro H.
  - rewrite (yields_det _ _ _ _ _ _ H A). exact B.
  - rewrite (yields_det _ _ _ _ _ _ H B). exact A.
Qed.

Lemma decode_stream_plain : forall ws tail,
  Forall wire_ok ws -> Forall (fun w => N.of_nat (length (wire_bytes w)) <= 65536) ws ->
  bytes_ok tail -> incomplete tail -> ((6 <= length tail)%nat -> N.of_nat (wire_len tail) <= 65536) ->
  yields pdec_next (pdec_new (reader_of (concat (map wire_bytes ws) ++ tail))) (map Ok (packets_at 0 ws)).
Proof.
  intros ws tail Hok Hlen Hb Hi HM.
  apply transcript_reader_of_yields.
  - apply bytes_ok_app. split; [|assumption].
    apply concat_wire_ok. assumption.
  - eapply decode_stream; eauto.
    cbn [evs]. destruct (concat (map wire_bytes ws) ++ tail) as [|b l] eqn:E; [reflexivity|].
    rewrite tokens_of_data by discriminate. cbn. rewrite app_nil_r. reflexivity.
Qed.

Lemma same_transcript_ptok : forall r1 r2, same_transcript r1 r2 ->
  ptok_of (pdec_new r1) = ptok_of (pdec_new r2).
Proof. intros r1 r2 [T F]. unfold ptok_of. cbn. rewrite T, F. reflexivity. Qed.

Lemma same_transcript_items : forall r1 r2 l, same_transcript r1 r2 -> tbytes_ok (transcript (evs r1)) ->
  (yields pdec_next (pdec_new r1) l <-> yields pdec_next (pdec_new r2) l) /\
  (panics_after pdec_next (pdec_new r1) l <-> panics_after pdec_next (pdec_new r2) l).
Proof.
  intros r1 r2 l HS Hb. assert (Hb2 : tbytes_ok (transcript (evs r2))) by (destruct HS as [<- _]; exact Hb).
  split.
  - rewrite !pdec_yields by assumption. rewrite (same_transcript_ptok r1 r2 HS). reflexivity.
  - rewrite !pdec_panics by assumption. rewrite (same_transcript_ptok r1 r2 HS). reflexivity.
Qed.

(* one call of next, inverted *)
Lemma pdec_next_inv : forall s, pd_ok s ->
  match pdec_next s with
  | Panic => exists hd ts, transcript (evs (pd_reader s)) = map TByte hd ++ ts /\ length hd = 6%nat
                           /\ 65529 < field hd 32 16
  | Val (Some (Ok p), s') =>
      transcript (evs (pd_reader s)) = map TByte (p_data p) ++ transcript (evs (pd_reader s'))
      /\ (length (p_data p) = wire_len (p_data p)) /\ p_header p = spec_header (p_data p)
      /\ p_offset p = pd_offset s /\ pd_offset s' = (pd_offset s + length (p_data p))%nat
  | Val (Some (Err e), s') =>
      pd_offset s' = pd_offset s /\
      exists k g, e = Io k /\ k <> UnexpectedEof /\ incomplete g /\
      (transcript (evs (pd_reader s)) = map TByte g ++ TErr k :: transcript (evs (pd_reader s'))
       \/ (transcript (evs (pd_reader s)) = map TByte g /\ transcript (evs (pd_reader s')) = []
           /\ exists c, fin (pd_reader s) = Failing c /\ k = OtherIo c))
  | Val (None, s') =>
      exists g, incomplete g /\
      (transcript (evs (pd_reader s)) = map TByte g ++ TErr UnexpectedEof :: transcript (evs (pd_reader s'))
       \/ transcript (evs (pd_reader s)) = map TByte g ++ TEof :: transcript (evs (pd_reader s'))
       \/ (transcript (evs (pd_reader s)) = map TByte g /\ transcript (evs (pd_reader s')) = []
           /\ fin (pd_reader s) = AtEof))
  end.
Proof.
  intros s Hok. assert (E := pdec_ptok s Hok).
  assert (HP := ptok_panic_iff (ptok_of s)).
  assert (P : forall P Q : Prop, P -> (P -> Q) -> Q) by tauto.
  unfold ptok_next in E. cbn [ptok_of pk_toks pk_fin pk_off] in E.
  destruct (re_tok 6 (transcript (evs (pd_reader s))) (fin (pd_reader s))) as [[hd st] ts] eqn:R1.
  assert (OK1 := re_tok_ok _ _ _ _ _ _ R1 Hok).
  apply re_tok_some in R1.
  destruct st as [k|].
  - destruct R1 as [L R1].
    assert (I : incomplete hd) by (left; lia).
    destruct (pdec_next s) as [[o s']|] eqn:N.
    2: { destruct k; discriminate. }
    cbn [omap_st] in E.
    destruct k as [| |c]; injection E as E2 ET EF EO; subst o ts.
    + exists hd. split; [exact I|]. destruct R1 as [R1|[[R1 _]|(R1 & R2 & R3)]]; auto.
      right; right. split; [exact R1|]. split; [exact R2|]. destruct (fin (pd_reader s)); [reflexivity|discriminate].
    + split; [exact EO|]. exists Interrupted, hd. repeat (split; [reflexivity || discriminate || assumption|]).
      destruct R1 as [R1|[[R1 X]|(R1 & R2 & R3)]]; auto; try discriminate.
      destruct (fin (pd_reader s)); discriminate.
    + split; [exact EO|]. exists (OtherIo c), hd. repeat (split; [reflexivity || discriminate || assumption|]).
      destruct R1 as [R1|[[R1 X]|(R1 & R2 & R3)]]; auto; try discriminate.
      destruct (fin (pd_reader s)) eqn:EFin; [discriminate|]. right. split; [exact R1|]. split; [exact R2|]. eauto.
  - destruct R1 as [L R1].
    destruct (wire_len hd <=? MAX_LEN)%nat eqn:EL.
    + destruct (re_tok (wire_len hd - 6) ts (fin (pd_reader s))) as [[body st2] ts2] eqn:R2.
      assert (OK2 := re_tok_ok _ _ _ _ _ _ R2 (proj1 OK1)).
      apply re_tok_some in R2. destruct st2 as [k|].
      * destruct R2 as [L2 R2].
        assert (I : incomplete (hd ++ body)).
        { right. rewrite wire_len_app by lia. rewrite app_length. lia. }
        destruct (pdec_next s) as [[o s']|] eqn:N.
        2: { destruct k; discriminate. }
        cbn [omap_st] in E.
        destruct k as [| |c]; injection E as E2 ET EF EO; subst o ts2.
        -- exists (hd ++ body). split; [exact I|]. rewrite R1, map_app, <- !app_assoc.
           destruct R2 as [->|[[-> _]|(-> & R2 & R3)]]; auto.
           right; right. split; [reflexivity|]. split; [exact R2|]. destruct (fin (pd_reader s)); [reflexivity|discriminate].
        -- split; [exact EO|]. exists Interrupted, (hd ++ body). repeat (split; [reflexivity || discriminate || assumption|]).
           rewrite R1, map_app, <- !app_assoc.
           destruct R2 as [->|[[-> X]|(-> & R2 & R3)]]; auto; try discriminate.
           destruct (fin (pd_reader s)); discriminate.
        -- split; [exact EO|]. exists (OtherIo c), (hd ++ body). repeat (split; [reflexivity || discriminate || assumption|]).
           rewrite R1, map_app, <- !app_assoc.
           destruct R2 as [->|[[-> X]|(-> & R2 & R3)]]; auto; try discriminate.
           destruct (fin (pd_reader s)) eqn:EFin; [discriminate|]. right. split; [reflexivity|]. split; [exact R2|]. eauto.
      * destruct R2 as [L2 R2]. destruct (pdec_next s) as [[o s']|] eqn:N; [|discriminate].
        cbn [omap_st] in E. injection E as E2 ET EF EO; subst o ts2.
        cbn [p_data p_header p_offset].
        rewrite R1, R2, map_app, <- app_assoc. split; [reflexivity|].
        assert (W : wire_len (hd ++ body) = wire_len hd) by (apply wire_len_app; lia).
        assert (LL : length (hd ++ body) = wire_len hd).
        { rewrite app_length. assert (7 <= wire_len hd)%nat by apply wire_len_ge. lia. }
        rewrite W, LL. repeat split; try reflexivity; try assumption.
        symmetry. apply spec_header_app. lia.
    + destruct (pdec_next s) as [[o s']|] eqn:N; [discriminate|].
      apply Nat.leb_gt in EL. exists hd, ts. repeat split; try assumption.
      assert (X := proj2 (max_len_spec (wire_len hd))). unfold wire_len in *. lia.
Qed.

(* consumption ends on every reader that is not failing forever *)
Lemma ptok_ends : forall n s, (length (pk_toks s) <= n)%nat -> pk_fin s = AtEof ->
  (exists l, yields ptok_next s l /\ (length l <= length (pk_toks s))%nat) \/ (exists l, panics_after ptok_next s l).
Proof.
  induction n; intros s Hn Hf.
  - destruct (ptok_next s) as [[[o|] s']|] eqn:E.
    + apply ptok_step_len in E. destruct E as [_ [E|[_ [c E]]]]; [lia|congruence].
    + left. exists []. split; [eapply yields_nil; exact E|cbn; lia].
    + right. exists []. apply panics_nil. exact E.
  - destruct (ptok_next s) as [[[o|] s']|] eqn:E.
    + assert (E' := E). apply ptok_step_len in E. destruct E as [EF [E|[_ [c E]]]]; [|congruence].
      destruct (IHn s') as [[l [Hl Hll]]|[l Hl]]; [lia|congruence| |].
      * left. exists (o :: l). split; [eapply yields_cons; eauto|cbn; lia].
      * right. exists (o :: l). eapply panics_cons; eauto.
    + left. exists []. split; [eapply yields_nil; exact E|cbn; lia].
    + right. exists []. apply panics_nil. exact E.
Qed.
Lemma pdec_ends : forall s, pd_ok s -> fin (pd_reader s) = AtEof ->
  (exists l, yields pdec_next s l) \/ (exists l, panics_after pdec_next s l).
Proof.
  intros s Hok Hf. destruct (ptok_ends (length (pk_toks (ptok_of s))) (ptok_of s)) as [[l [H _]]|[l H]]; auto.
  - left. exists l. apply pdec_yields; assumption.
  - right. exists l. apply pdec_panics; assumption.
Qed.

(* filter_map(Result::ok): one call returns once the underlying iteration ends *)
Lemma filter_ok_returns : forall St A (next : St -> outcome (option (result A) * St)) s l,
  yields next s l \/ panics_after next s l -> exists fuel o, filter_ok_next next fuel s = Some o.
Proof.
  intros St A next s l H. revert s H. induction l as [|a l IH]; intros s H.
  - exists 1%nat. cbn. destruct H as [H|H]; inversion H; subst.
    + rewrite H0. eauto.
    + rewrite H0. eauto.
  - assert (E : exists s', next s = Val (Some a, s') /\ (yields next s' l \/ panics_after next s' l)).
    { destruct H as [H|H]; inversion H; subst; eauto. }
    destruct E as (s' & E & H'). destruct a as [p|e].
    + exists 1%nat. cbn. rewrite E. eauto.
    + destruct (IH s' H') as (fuel & o & F). exists (S fuel), o. cbn. rewrite E. exact F.
Qed.

Lemma failing_hangs : forall c off fuel,
  filter_ok_next pdec_next fuel (mkPdec (mkReader [] (Failing c)) off) = None.
Proof. intros c off fuel. induction fuel; [reflexivity|]. cbn. exact IHfuel. Qed.
