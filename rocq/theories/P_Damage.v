(* Property C106: damage to recorded packets *)
From Coq Require Import Permutation.
From Verif Require Import Base S_Bits M_Reader M_Packet S_Packet L_Base L_Bits L_Packet L_Timecode M_Merge S_Merge M_Main M_Cli S_Cli S_Main S_Compose L_Merge L_Compose P_Main S_Diff P_CliDiff S_AnyFile P_AnyFile S_FramePackets S_Join S_Damage.
Open Scope nat_scope.

Lemma first_six : forall (b : list N), 6 <= length b -> exists a0 a1 a2 a3 a4 a5 r, b = a0 :: a1 :: a2 :: a3 :: a4 :: a5 :: r.
Proof.
  intros b L. destruct b as [|a0 [|a1 [|a2 [|a3 [|a4 [|a5 r]]]]]]; cbn [length] in L; try lia. eauto 10.
Qed.
Lemma wire_len_at : forall a0 a1 a2 a3 a4 a5 r, bytes_ok (a0 :: a1 :: a2 :: a3 :: a4 :: a5 :: r) ->
  wire_len (a0 :: a1 :: a2 :: a3 :: a4 :: a5 :: r) = 7 + N.to_nat (256 * a4 + a5).
Proof.
  intros a0 a1 a2 a3 a4 a5 r B. unfold wire_len. f_equal. f_equal.
  assert (H := field_bytes (a0 :: a1 :: a2 :: a3 :: a4 :: a5 :: r) 4 2 B). change (8 * 4) with 32 in H. change (8 * 2) with 16 in H. rewrite H.
  cbn [skipn firstn]. unfold be. cbn [fold_left]. lia.
Qed.
Lemma wire_len_same : forall a b, bytes_ok a -> bytes_ok b -> 6 <= length a -> 6 <= length b -> kept_at a b 4 -> kept_at a b 5 -> wire_len b = wire_len a.
Proof.
  intros a b HA HB LA LB K4 K5.
  destruct (first_six a LA) as (a0 & a1 & a2 & a3 & a4 & a5 & r & ->). destruct (first_six b LB) as (b0 & b1 & b2 & b3 & b4 & b5 & r' & ->).
  unfold kept_at in K4, K5. cbn [nth_error] in K4, K5. injection K4 as ->. injection K5 as ->. rewrite !wire_len_at by assumption. reflexivity.
Qed.
Lemma nth_skip : forall (A : Type) n i (l : list A), nth_error (skipn n l) i = nth_error l (n + i).
Proof. intros A n. induction n as [|n IH]; intros i [|x l]; cbn; try reflexivity; [destruct i; reflexivity|apply IH]. Qed.
Lemma kept_skip : forall n a b i, kept_at (skipn n a) (skipn n b) i <-> kept_at a b (n + i).
Proof. intros. unfold kept_at. rewrite !nth_skip. reflexivity. Qed.
Lemma nth_ext_list : forall (a b : list N), (forall i, nth_error a i = nth_error b i) -> a = b.
Proof.
  induction a as [|x a IH]; intros [|y b] H; [reflexivity|specialize (H 0); discriminate|specialize (H 0); discriminate|].
  f_equal; [assert (H0 := H 0); cbn in H0; congruence|apply IH; intro i; apply (H (S i))].
Qed.
Lemma start_S : forall w ws k, start (w :: ws) (S k) = length (wire_bytes w) + start ws k.
Proof. intros. unfold start, stream. cbn [firstn map concat]. apply app_length. Qed.

(* Bytes may be damaged anywhere but in the length fields: then every packet is still found where it was, with what is there now; the
   ones in which no byte was damaged are unchanged, and the headers in which none was *)
Theorem C106_damage : forall ws bs bs', file_holds bs ws -> length bs' = length bs -> bytes_ok bs' -> lengths_kept ws bs bs' ->
  exists ws', file_holds bs' ws' /\ length ws' = length ws /\
    yields pdec_next (pdec_new (reader_of bs')) (map Ok (packets_at 0 ws')) /\
    forall k w w', nth_error ws k = Some w -> nth_error ws' k = Some w' ->
      start ws' k = start ws k /\ wire_bytes w' = place ws k w bs' /\ length (wire_bytes w') = length (wire_bytes w) /\
      ((forall i, i < length (wire_bytes w) -> kept_at bs bs' (start ws k + i)) -> w' = w) /\
      ((forall i, i < 4 -> kept_at bs bs' (start ws k + i)) -> w_header w' = w_header w).
Proof.
  assert (X : forall ws bs bs', file_holds bs ws -> length bs' = length bs -> bytes_ok bs' -> lengths_kept ws bs bs' ->
    exists ws', file_holds bs' ws' /\ length ws' = length ws /\
    forall k w w', nth_error ws k = Some w -> nth_error ws' k = Some w' ->
      start ws' k = start ws k /\ wire_bytes w' = place ws k w bs' /\ length (wire_bytes w') = length (wire_bytes w)).
  { induction ws as [|w ws IH]; intros bs bs' (OK & SM & tail & E & TB & TI & TS) L B K.
    - cbn [map concat app] in E. subst tail. exists []. split; [|split; [reflexivity|intros [|k] w w' H; discriminate]].
      split; [constructor|]. split; [constructor|]. exists bs'. split; [reflexivity|]. split; [exact B|].
      destruct (Nat.lt_ge_cases (length bs) 6) as [S6|S6]; [split; [left; lia|lia]|].
      destruct (K 0 ltac:(lia)) as [K4 K5]. cbn in K4, K5.
      assert (WL := wire_len_same bs bs' TB B S6 ltac:(lia) K4 K5). unfold incomplete in *. rewrite WL, L. split; [exact TI|exact TS].
    - inversion OK as [|? ? OK1 OK2]; inversion SM as [|? ? SM1 SM2]; subst. cbn [map concat] in L, K. rewrite <- app_assoc in L, K.
      destruct (wire_bytes_props w OK1) as (WB & W7 & WL & WH).
      set (n := length (wire_bytes w)) in *. set (more := concat (map wire_bytes ws) ++ tail) in *.
      assert (LB : length bs' = n + length more) by (rewrite L, app_length; reflexivity).
      assert (BW : bytes_ok (wire_bytes w ++ more)).
      { apply bytes_ok_app. split; [exact WB|]. apply bytes_ok_app. split; [apply concat_wire_ok; exact OK2|exact TB]. }
      assert (WL' : wire_len bs' = n).
      { destruct (K 0 ltac:(lia)) as [K4 K5]. cbn [start stream firstn map concat length Nat.add] in K4, K5.
        rewrite (wire_len_same _ bs' BW B ltac:(rewrite app_length; lia) ltac:(lia) K4 K5). rewrite wire_len_app by lia. exact WL. }
      destruct (wire_of_bytes (firstn n bs')) as (w' & OKw & WBw).
      { apply bytes_ok_firstn. exact B. }
      { rewrite firstn_length. lia. }
      { rewrite firstn_length, Nat.min_l by lia. rewrite <- WL' at 1. rewrite <- (firstn_skipn n bs') at 1. apply wire_len_app. rewrite firstn_length. lia. }
      assert (Ln : length (wire_bytes w') = n) by (rewrite WBw, firstn_length; lia).
      destruct (IH more (skipn n bs')) as (ws' & FH & LL & EACH).
      { split; [exact OK2|]. split; [exact SM2|]. exists tail. auto. }
      { rewrite skipn_length. lia. }
      { apply bytes_ok_skipn. exact B. }
      { intros k Hk. assert (SK : skipn n (wire_bytes w ++ more) = more).
        { unfold n. rewrite skipn_app, skipn_all, Nat.sub_diag. reflexivity. }
        rewrite <- SK. rewrite !kept_skip. destruct (K (S k) ltac:(cbn [length]; lia)) as [K4 K5]. rewrite start_S in K4, K5. fold n in K4, K5.
        rewrite !Nat.add_assoc. split; assumption. }
      exists (w' :: ws'). split; [|split; [cbn [length]; lia|]].
      + destruct FH as (F1 & F2 & tl & F3 & F4). split; [constructor; assumption|]. split; [constructor; [rewrite Ln; exact SM1|exact F2]|].
        exists tl. split; [|exact F4]. cbn [map concat]. rewrite <- app_assoc, <- F3, WBw. symmetry. apply firstn_skipn.
      + intros [|k] v v' HV HV'; cbn [nth_error] in HV, HV'.
        * injection HV as <-. injection HV' as <-. split; [reflexivity|]. unfold place. cbn [start stream firstn map concat length skipn]. fold n. split; [exact WBw|exact Ln].
        * destruct (EACH k v v' HV HV') as (E1 & E2 & E3). rewrite !start_S, Ln, E1. split; [reflexivity|]. split; [|exact E3].
          rewrite E2. unfold place. rewrite start_S. fold n. rewrite skipn_skipn. f_equal. f_equal. lia. }
  intros ws bs bs' FH L B K. destruct (X ws bs bs' FH L B K) as (ws' & FH' & LL & EACH).
  exists ws'. split; [exact FH'|]. split; [exact LL|]. split; [apply C78_reading; exact FH'|].
  intros k w w' HW HW'. destruct (EACH k w w' HW HW') as (E1 & E2 & E3). split; [exact E1|]. split; [exact E2|]. split; [exact E3|].
  destruct FH as (OK & _ & tail & E & _). destruct FH' as (OK' & _).
  assert (O1 : wire_ok w) by (eapply (proj1 (Forall_forall _ _) OK), nth_error_In; exact HW).
  assert (O2 : wire_ok w') by (eapply (proj1 (Forall_forall _ _) OK'), nth_error_In; exact HW').
  (* the place of w in the undamaged file holds w *)
  assert (P : wire_bytes w = place ws k w bs).
  { unfold place, start, stream. rewrite E. rewrite <- (firstn_skipn k ws) at 2. rewrite map_app, concat_app, <- app_assoc, skipn_app, skipn_all, Nat.sub_diag. cbn [skipn app].
    assert (SK : skipn k ws = w :: skipn (S k) ws).
    { clear -HW. revert ws HW. induction k as [|k IH]; intros [|x ws] HW; try discriminate; cbn in *; [congruence|apply IH; exact HW]. }
    rewrite SK. cbn [map concat]. rewrite <- app_assoc, firstn_app, firstn_all, Nat.sub_diag, firstn_O, app_nil_r. reflexivity. }
  assert (AT : forall i, i < length (wire_bytes w) -> kept_at bs bs' (start ws k + i) -> nth_error (wire_bytes w') i = nth_error (wire_bytes w) i).
  { intros i Hi KA. rewrite E2. transitivity (nth_error (place ws k w bs) i); [|rewrite <- P; reflexivity]. unfold place.
    assert (NF : forall l : list N, nth_error (firstn (length (wire_bytes w)) l) i = nth_error l i).
    { intro l. rewrite <- (firstn_skipn (length (wire_bytes w)) l) at 2. destruct (Nat.lt_ge_cases i (length (firstn (length (wire_bytes w)) l))) as [Q|Q].
      - symmetry. apply nth_error_app1. exact Q.
      - assert (length l <= i) by (rewrite firstn_length in Q; lia). rewrite firstn_skipn. rewrite (proj2 (nth_error_None _ _)) by exact Q. symmetry. apply nth_error_None. assumption. }
    rewrite !NF, !nth_skip. exact KA. }
  assert (INJ : forall u v, wire_ok u -> wire_ok v -> wire_bytes u = wire_bytes v -> u = v).
  { intros [hu bu] [hv bv] OU OV Q. destruct (wire_bytes_props _ OU) as (_ & _ & _ & HU). destruct (wire_bytes_props _ OV) as (_ & _ & _ & HV).
    rewrite Q in HU. rewrite HU in HV. cbn [w_header] in HV. subst hv. unfold wire_bytes in Q. cbn [w_header w_body] in Q. apply app_inv_head in Q. congruence. }
  split.
  - intro KA. apply INJ; [assumption..|]. apply nth_ext_list. intro i. destruct (Nat.lt_ge_cases i (length (wire_bytes w))) as [Q|Q]; [apply AT; auto|].
    rewrite !(proj2 (nth_error_None _ _)) by lia. reflexivity.
  - intro KA. destruct (wire_bytes_props _ O1) as (_ & L7 & _ & H1). destruct (wire_bytes_props _ O2) as (_ & L7' & _ & H2).
    rewrite <- H1, <- H2. rewrite <- (spec_header_firstn 6 (wire_bytes w)) by lia. rewrite <- (spec_header_firstn 6 (wire_bytes w')) by lia.
    destruct (K k) as [K4 K5]. { apply Nat.lt_le_incl. apply nth_error_Some. congruence. }
    assert (A : forall i, i < 6 -> nth_error (wire_bytes w') i = nth_error (wire_bytes w) i).
    { intros i Hi. apply AT; [lia|]. destruct (Nat.lt_ge_cases i 4) as [Q|Q]; [apply KA; exact Q|]. assert (D : i = 4 \/ i = 5) by lia. destruct D as [->| ->]; assumption. }
    destruct (first_six (wire_bytes w) ltac:(lia)) as (a0 & a1 & a2 & a3 & a4 & a5 & r & EA). destruct (first_six (wire_bytes w') ltac:(lia)) as (b0 & b1 & b2 & b3 & b4 & b5 & r' & EB).
    rewrite EA, EB in A |- *. assert (A0 := A 0 ltac:(lia)). assert (A1 := A 1 ltac:(lia)). assert (A2 := A 2 ltac:(lia)). assert (A3 := A 3 ltac:(lia)).
    assert (A4 := A 4 ltac:(lia)). assert (A5 := A 5 ltac:(lia)). cbn [nth_error] in *. cbn [firstn]. congruence.
Qed.
Print Assumptions C106_damage.

(* A damaged length field: what comes behind is read from where the packet is now said to end. If that is behind the end of the file, the packet
   and all that follow are lost, without an error; if it is more than 65536 bytes, reading panics. *)
Lemma wire_len_set : forall l w more, wire_ok w -> bytes_ok more -> (l < 65536)%N ->
  bytes_ok (set_length l (wire_bytes w) ++ more) /\ length (set_length l (wire_bytes w)) = length (wire_bytes w) /\
  wire_len (set_length l (wire_bytes w) ++ more) = 7 + N.to_nat l.
Proof.
  intros l w more OK BM L. destruct (wire_bytes_props w OK) as (WB & W7 & _ & _).
  destruct (first_six (wire_bytes w) ltac:(lia)) as (a0 & a1 & a2 & a3 & a4 & a5 & r & E). rewrite E in *. unfold set_length. cbn [firstn skipn app].
  assert (B : bytes_ok (a0 :: a1 :: a2 :: a3 :: (l / 256)%N :: (l mod 256)%N :: r ++ more)).
  { inversion WB as [|? ? B0 T0]; inversion T0 as [|? ? B1 T1]; inversion T1 as [|? ? B2 T2]; inversion T2 as [|? ? B3 T3]; inversion T3 as [|? ? B4 T4]; inversion T4 as [|? ? B5 T5]; subst.
    repeat (constructor; [assumption|]). constructor; [apply N.div_lt_upper_bound; lia|]. constructor; [apply N.mod_lt; lia|].
    apply bytes_ok_app. split; assumption. }
  split; [exact B|]. split; [reflexivity|]. rewrite wire_len_at by exact B. f_equal. f_equal. rewrite <- N.div_mod by lia. reflexivity.
Qed.
Lemma holds_behind : forall pre bs ws, Forall wire_ok pre -> Forall (fun w => N.of_nat (length (wire_bytes w)) <= 65536)%N pre ->
  file_holds bs ws -> file_holds (stream pre ++ bs) (pre ++ ws).
Proof.
  intros pre bs ws O1 S1 (O2 & S2 & tail & -> & T). split; [apply Forall_app; auto|]. split; [apply Forall_app; auto|].
  exists tail. split; [|exact T]. unfold stream. rewrite map_app, concat_app, app_assoc. reflexivity.
Qed.
Theorem C106_length : forall pre w l more, Forall wire_ok (pre ++ [w]) -> Forall (fun w => N.of_nat (length (wire_bytes w)) <= 65536)%N pre ->
  bytes_ok more -> (l < 65536)%N -> let n := 7 + N.to_nat l in let rest := set_length l (wire_bytes w) ++ more in
  let bs := stream pre ++ rest in
  ((N.of_nat n <= 65536)%N -> length rest < n -> file_holds bs pre /\ yields pdec_next (pdec_new (reader_of bs)) (map Ok (packets_at 0 pre))) /\
  ((N.of_nat n <= 65536)%N -> n <= length rest -> exists w', w_header w' = (spec_header rest) /\ wire_bytes w' = firstn n rest /\
     forall ws, file_holds (skipn n rest) ws -> file_holds bs (pre ++ w' :: ws) /\
       yields pdec_next (pdec_new (reader_of bs)) (map Ok (packets_at 0 (pre ++ w' :: ws)))) /\
  ((65536 < N.of_nat n)%N -> panics_after pdec_next (pdec_new (reader_of bs)) (map Ok (packets_at 0 pre))).
Proof.
  intros pre w l more OK SM BM LL n rest bs. apply Forall_app in OK. destruct OK as [OP OW]. inversion OW as [|? ? OW1 _]; subst.
  destruct (wire_len_set l w more OW1 BM LL) as (B & LS & WL). fold rest in B, WL. fold n in WL.
  assert (W7 : 7 <= length (wire_bytes w)) by (apply wire_bytes_props; exact OW1).
  assert (R6 : 6 <= length rest) by (unfold rest; rewrite app_length, LS; lia).
  split; [|split].
  - intros S1 SHORT. assert (FH : file_holds bs pre).
    { split; [exact OP|]. split; [exact SM|]. exists rest. split; [reflexivity|]. split; [exact B|]. split; [right; rewrite WL; exact SHORT|]. intro. rewrite WL. exact S1. }
    split; [exact FH|]. apply C78_reading. exact FH.
  - intros S1 FITS. destruct (wire_of_bytes (firstn n rest)) as (w' & OK' & WB').
    { apply bytes_ok_firstn. exact B. }
    { rewrite firstn_length. lia. }
    { rewrite firstn_length, Nat.min_l by exact FITS. rewrite <- WL at 1. rewrite <- (firstn_skipn n rest) at 1. apply wire_len_app. rewrite firstn_length. lia. }
    exists w'. split; [|split; [exact WB'|]].
    { destruct (wire_bytes_props w' OK') as (_ & _ & _ & H). rewrite <- H, WB'. apply spec_header_firstn; lia. }
    intros ws (O2 & S2 & tail & E2 & T2).
    assert (FH : file_holds bs (pre ++ w' :: ws)).
    { apply holds_behind; [exact OP|exact SM|]. split; [constructor; assumption|]. split; [constructor; [|exact S2]|].
      - rewrite WB', firstn_length, Nat.min_l by exact FITS. exact S1.
      - exists tail. split; [|exact T2]. cbn [map concat]. rewrite <- app_assoc, <- E2, WB'. symmetry. apply firstn_skipn. }
    split; [exact FH|]. apply C78_reading. exact FH.
  - intro BIG. apply C78_reading. split; [exact OP|]. split; [exact SM|]. exists rest. split; [reflexivity|]. split; [exact B|]. split; [exact R6|]. rewrite WL. exact BIG.
Qed.
Print Assumptions C106_length.

(* In particular one damaged byte can lose the packets behind it: a length that covers the next packets takes them in as data *)
Theorem C106_swallowed_refuted : forall pre w lost post l tail, filed (pre ++ w :: lost ++ post) -> bytes_ok tail -> incomplete tail ->
  (6 <= length tail -> (N.of_nat (wire_len tail) <= 65536)%N) -> lost <> [] ->
  (l < 65530)%N -> 7 + N.to_nat l = length (wire_bytes w) + length (stream lost) ->
  exists w', file_holds (stream pre ++ set_length l (wire_bytes w) ++ stream lost ++ stream post ++ tail) (pre ++ w' :: post) /\
    wire_bytes w' = set_length l (wire_bytes w) ++ stream lost.
Proof.
  intros pre w lost post l tail [OK SM] TB TI TS NE LL LEN.
  apply Forall_app in OK. destruct OK as [OP OW]. inversion OW as [|? ? OW1 OW2]; subst. apply Forall_app in OW2. destruct OW2 as [OL OQ].
  apply Forall_app in SM. destruct SM as [SP SW]. inversion SW as [|? ? SW1 SW2]; subst. apply Forall_app in SW2. destruct SW2 as [SL SQ].
  assert (BM : bytes_ok (stream lost ++ stream post ++ tail)).
  { apply bytes_ok_app. split; [apply concat_wire_ok; exact OL|]. apply bytes_ok_app. split; [apply concat_wire_ok; exact OQ|exact TB]. }
  destruct (wire_len_set l w _ OW1 BM ltac:(lia)) as (B & LS & WL).
  destruct (C106_length pre w l _ ltac:(apply Forall_app; auto) SP BM ltac:(lia)) as (_ & FITS & _).
  destruct FITS as (w' & H & E & R).
  { lia. }
  { rewrite !app_length, LS. lia. }
  exists w'. assert (CUT : length (set_length l (wire_bytes w) ++ stream lost) = 7 + N.to_nat l) by (rewrite app_length, LS; lia).
  rewrite app_assoc in E. rewrite <- CUT in E. split; [|rewrite E, firstn_app, firstn_all, Nat.sub_diag, firstn_O, app_nil_r; reflexivity].
  apply R. rewrite app_assoc, <- CUT, skipn_app, skipn_all, Nat.sub_diag. cbn [skipn app].
  split; [exact OQ|]. split; [exact SQ|]. exists tail. auto.
Qed.
Print Assumptions C106_swallowed_refuted.

(* ---- the commands ---- *)
Lemma picked_S : forall w ws idx, picked (w :: ws) (map S idx) = picked ws idx.
Proof. intros w ws idx. unfold picked. induction idx as [|k idx IH]; [reflexivity|]. cbn [map flat_map nth_error]. rewrite IH. reflexivity. Qed.
Definition alike (w w' : wire_packet) : Prop := w_header w' = w_header w /\ length (wire_bytes w') = length (wire_bytes w).
Lemma kept_alike : forall (P : header -> Prop) ws ks, kept (fun w => P (w_header w)) ws ks -> forall ws', Forall2 alike ws ws' ->
  exists idx, ks = picked ws idx /\ kept (fun w => P (w_header w)) ws' (picked ws' idx) /\ length (stream (picked ws' idx)) = length (stream ks).
Proof.
  intros P ws ks K. induction K as [|w ws ks Y K IH|w ws ks N0 K IH]; intros ws' F; inversion F as [|? w' ? r' [A1 A2] FR]; subst.
  - exists []. split; [reflexivity|]. split; [constructor|reflexivity].
  - destruct (IH _ FR) as (idx & E & K' & L). exists (0 :: map S idx).
    assert (Q : forall x xs, picked (x :: xs) (0 :: map S idx) = x :: picked xs idx).
    { intros x xs. change (picked (x :: xs) (0 :: map S idx)) with (x :: picked (x :: xs) (map S idx)). rewrite picked_S. reflexivity. }
    rewrite !Q. split; [rewrite <- E; reflexivity|]. split; [constructor; [rewrite A1; exact Y|exact K']|].
    unfold stream in *. cbn [map concat]. rewrite !app_length, A2, L. reflexivity.
  - destruct (IH _ FR) as (idx & E & K' & L). exists (map S idx). rewrite !picked_S. split; [exact E|]. split; [|exact L].
    constructor; [rewrite A1; exact N0|exact K'].
Qed.
Lemma headers_alike : forall ws bs bs', file_holds bs ws -> length bs' = length bs -> bytes_ok bs' -> headers_kept ws bs bs' ->
  exists ws', file_holds bs' ws' /\ Forall2 alike ws ws'.
Proof.
  intros ws bs bs' FH L B H.
  destruct (C106_damage ws bs bs' FH L B) as (ws' & FH' & LL & _ & EACH).
  { intros k Hk. split; apply H; lia. }
  exists ws'. split; [exact FH'|].
  assert (A : forall k w w', nth_error ws k = Some w -> nth_error ws' k = Some w' -> alike w w').
  { intros k w w' E E'. destruct (EACH k w w' E E') as (_ & _ & LE & _ & HE). split; [|exact LE]. apply HE. intros i Hi. apply H; [|lia].
    apply Nat.lt_le_incl, nth_error_Some. congruence. }
  clear -LL A. revert ws' LL A. induction ws as [|w ws IH]; intros [|w' ws'] LL A; try discriminate; [constructor|].
  constructor; [apply (A 0); reflexivity|]. apply IH; [injection LL as LL; exact LL|]. intros k v v' E E'. apply (A (S k)); assumption.
Qed.
(* If no header is damaged, filter by apid writes the packets with the same numbers, as they are now *)
Theorem C106_filter : forall creatable fs a b ws bs bs' include exclude, ready creatable fs a -> ready creatable fs b ->
  file_holds bs ws -> length bs' = length bs -> bytes_ok bs' -> headers_kept ws bs bs' ->
  aget (fa_input a) fs = Some bs -> aget (fa_input b) fs = Some bs' ->
  numbers a include exclude -> numbers b include exclude -> some_apid include exclude -> untimed a -> untimed b ->
  exists ws' idx fsa fsb, file_holds bs' ws' /\
    filter_command creatable fs a = Val (Success, fsa) /\ only_written fs (fa_output a) (stream (picked ws idx)) fsa /\
    filter_command creatable fs b = Val (Success, fsb) /\ only_written fs (fa_output b) (stream (picked ws' idx)) fsb /\
    length (stream (picked ws' idx)) = length (stream (picked ws idx)).
Proof.
  intros creatable fs a b ws bs bs' ix ex (MA & CA & NA) (MB & CB & NB) FH L B H IA IB [A1 A2] [B1 B2] SA [UA UA'] [UB UB'].
  destruct (headers_alike ws bs bs' FH L B H) as (ws' & FH' & AL).
  destruct (C56_filter_command_apids creatable fs a _ ws ix ex MA CA NA IA FH A1 A2 SA UA UA') as (ka & fsa & KA & EA & WA).
  destruct (C56_filter_command_apids creatable fs b _ ws' ix ex MB CB NB IB FH' B1 B2 SA UB UB') as (kb & fsb & KB & EB & WB).
  destruct (kept_alike (fun h => accepted ix ex (apid h)) ws ka KA ws' AL) as (idx & E & K' & LL).
  assert (KK := kept_det _ _ _ _ _ KB K'). subst ka kb.
  exists ws', idx, fsa, fsb. repeat (split; [assumption|]). exact LL.
Qed.
Print Assumptions C106_filter.
(* ... and info reports the same, but for times *)
Theorem C106_info : forall ovf fs a b ws bs bs', file_holds bs ws -> length bs' = length bs -> bytes_ok bs' -> headers_kept ws bs bs' ->
  aget a fs = Some bs -> aget b fs = Some bs' -> info_command ovf fs b false = info_command ovf fs a false.
Proof.
  intros ovf fs a b ws bs bs' FH L B H GA GB. destruct (headers_alike ws bs bs' FH L B H) as (ws' & FH' & AL).
  unfold info_command. rewrite GA, GB, (file_items_ok _ _ FH), (file_items_ok _ _ FH'). cbn [obind]. f_equal.
  unfold summarize. rewrite !L_Merge.keep_ok_map.
  assert (X : forall ws ws', Forall2 alike ws ws' -> forall n n' s, info_steps ovf None s (packets_at n' ws') = info_steps ovf None s (packets_at n ws)).
  { intros u u' F. induction F as [|w w' u u' [A1 _] F IH]; intros n n' s; [reflexivity|]. cbn [packets_at info_steps].
    assert (E : info_step ovf None s (mkPacket (w_header w') (wire_bytes w') n') = info_step ovf None s (mkPacket (w_header w) (wire_bytes w) n)).
    { unfold info_step. cbn [p_header]. rewrite A1. reflexivity. }
    rewrite E. clear E. set (o := info_step ovf None s (mkPacket (w_header w) (wire_bytes w) n)). clearbody o. destruct o as [s'|]; cbn [obind]; [apply IH|reflexivity]. }
  rewrite (X _ _ AL 0 0). reflexivity.
Qed.
Print Assumptions C106_info.

(* Damage that no length field is part of is always found by diff with the undamaged file, if it changes the apid, the sequence id or the checksum of the data
   of a packet (the one missed difference of C51 needs files with different numbers of packets) *)
Lemma even_diffs : forall l r : list key, length l = length r -> length (minus key_dec l r) = length (minus key_dec r l).
Proof.
  intros l r L. assert (P : Permutation (r ++ minus key_dec l r) (l ++ minus key_dec r l)).
  { apply (Permutation_count_occ key_dec). intro x. rewrite !count_occ_app, !count_minus. lia. }
  apply Permutation_length in P. rewrite !app_length in P. lia.
Qed.
Theorem C106_diff : forall csum ws bs bs', file_holds bs ws -> ws <> [] -> length bs' = length bs -> bytes_ok bs' -> lengths_kept ws bs bs' ->
  exists ws' il ir, file_holds bs' ws' /\ length ws' = length ws /\
    yields pdec_next (pdec_new (reader_of bs)) il /\ yields pdec_next (pdec_new (reader_of bs')) ir /\
    (diff_cmd csum il ir = Val DiffOk <-> Permutation (map (wkey csum) ws) (map (wkey csum) ws')).
Proof.
  intros csum ws bs bs' FH NE L B K. destruct (C106_damage ws bs bs' FH L B K) as (ws' & FH' & LL & Y' & _).
  exists ws', (map Ok (packets_at 0 ws)), (map Ok (packets_at 0 ws')).
  split; [exact FH'|]. split; [exact LL|]. assert (Y := proj1 (C78_reading bs ws) FH). split; [exact Y|]. split; [exact Y'|]. split.
  - intro OKD. destruct (Nat.eq_dec (diffs (map (wkey csum) ws) (map (wkey csum) ws')) 0) as [Z0|NZ]; [apply diff_same in Z0; exact Z0|]. exfalso.
    assert (T : 2 <= diffs (map (wkey csum) ws) (map (wkey csum) ws')).
    { assert (E := even_diffs (map (wkey csum) ws) (map (wkey csum) ws') ltac:(rewrite !map_length; lia)). unfold differences in *. lia. }
    destruct (C51_detects csum bs bs' ws ws' FH FH' T) as (il & ir & n & Y1 & Y2 & D & _).
    rewrite (yields_unique _ _ _ _ _ _ Y1 Y), (yields_unique _ _ _ _ _ _ Y2 Y') in D. rewrite D in OKD. discriminate.
  - intro P. destruct (C51_equal_files csum bs bs' ws ws' FH FH' P NE) as (il & ir & Y1 & Y2 & D).
    rewrite (yields_unique _ _ _ _ _ _ Y1 Y), (yields_unique _ _ _ _ _ _ Y2 Y') in D. exact D.
Qed.
Print Assumptions C106_diff.
(* so damage to the version, the type, the flags of a header is never found by it: none of them is compared *)
Theorem C106_diff_blind_refuted : forall csum bs bs' pre w w' post, file_holds bs (pre ++ w :: post) -> file_holds bs' (pre ++ w' :: post) ->
  apid (w_header w') = apid (w_header w) -> sequence_id (w_header w') = sequence_id (w_header w) -> w_body w' = w_body w ->
  exists il ir, yields pdec_next (pdec_new (reader_of bs)) il /\ yields pdec_next (pdec_new (reader_of bs')) ir /\ diff_cmd csum il ir = Val DiffOk.
Proof.
  intros csum bs bs' pre w w' post FH FH' A S0 D. apply (C51_equal_files csum bs bs' (pre ++ w :: post) (pre ++ w' :: post) FH FH').
  - rewrite !map_app. cbn [map]. assert (E : wkey csum w' = wkey csum w) by (unfold wkey; rewrite A, S0, D; reflexivity). rewrite E. apply Permutation_refl.
  - destruct pre; discriminate.
Qed.
Print Assumptions C106_diff_blind_refuted.

(* ---- the hypotheses are met ---- *)
Definition dm_w1 : wire_packet := mkWire (mkHeader 0 0 false 1 3 0 1) [5; 6]%N.
Definition dm_w2 : wire_packet := mkWire (mkHeader 0 0 false 2 3 0 1) [7; 8]%N.
Definition dm_w3 : wire_packet := mkWire (mkHeader 0 0 false 4 3 0 1) [9; 9]%N.
Lemma dm_ok : Forall wire_ok [dm_w1; dm_w2; dm_w3].
Proof. repeat constructor. Qed.
Lemma dm_small : Forall (fun w => N.of_nat (length (wire_bytes w)) <= 65536)%N [dm_w1; dm_w2; dm_w3].
Proof. repeat constructor; cbn; lia. Qed.
Lemma dm_nil_tail : incomplete [].
Proof. left. cbn. lia. Qed.
(* a byte of the data of the first and the apid of the second packet are damaged: the third is read, with the others as they are now *)
Example C106_damage_ex :
  exists ws', file_holds [0;1;192;0;0;1;99;6; 0;3;192;0;0;1;7;8; 0;4;192;0;0;1;9;9]%N ws' /\ length ws' = 3 /\ nth_error ws' 2 = Some dm_w3 /\
    (exists w1, nth_error ws' 0 = Some w1 /\ w_header w1 = w_header dm_w1).
Proof.
  destruct (C106_damage [dm_w1; dm_w2; dm_w3] (stream [dm_w1; dm_w2; dm_w3]) [0;1;192;0;0;1;99;6; 0;3;192;0;0;1;7;8; 0;4;192;0;0;1;9;9]%N) as (ws' & FH & L & _ & EACH).
  - split; [exact dm_ok|]. split; [exact dm_small|]. exists []. split; [symmetry; apply app_nil_r|]. split; [constructor|]. split; [exact dm_nil_tail|cbn; lia].
  - reflexivity.
  - repeat constructor.
  - intros k Hk. cbn [length] in Hk. destruct k as [|[|[|[|k]]]]; [| | | |lia]; split; reflexivity.
  - exists ws'. split; [exact FH|]. split; [exact L|]. destruct ws' as [|a [|b [|c [|d r]]]]; try discriminate L. cbn [nth_error]. split.
    + f_equal. apply (EACH 2 dm_w3 c eq_refl eq_refl). intros i Hi. change (length (wire_bytes dm_w3)) with 8 in Hi. destruct i as [|[|[|[|[|[|[|[|i]]]]]]]]; try lia; reflexivity.
    + exists a. split; [reflexivity|]. apply (EACH 0 dm_w1 a eq_refl eq_refl). intros i Hi. destruct i as [|[|[|[|i]]]]; try lia; reflexivity.
Qed.
(* the length of the first packet damaged from 1 to 255: nothing is read; to 65535: panic; to 0: what follows is misread *)
Example C106_length_at :
  file_holds [0;1;192;0;0;255;5;6; 0;2;192;0;0;1;7;8]%N [] /\
  panics_after pdec_next (pdec_new (reader_of [0;1;192;0;255;255;5;6; 0;2;192;0;0;1;7;8]%N)) [] /\
  (exists w', wire_bytes w' = [0;1;192;0;0;0;5]%N /\ forall ws, file_holds [6; 0;2;192;0;0;1;7;8]%N ws -> file_holds [0;1;192;0;0;0;5;6; 0;2;192;0;0;1;7;8]%N (w' :: ws)).
Proof.
  assert (B : bytes_ok (wire_bytes dm_w2)) by repeat constructor. assert (O : Forall wire_ok ([] ++ [dm_w1])) by repeat constructor.
  split; [|split].
  - destruct (C106_length [] dm_w1 255 (wire_bytes dm_w2) O ltac:(constructor) B ltac:(lia)) as (H & _). apply H; vm_compute; [discriminate|lia].
  - destruct (C106_length [] dm_w1 65535 (wire_bytes dm_w2) O ltac:(constructor) B ltac:(lia)) as (_ & _ & H). apply H. rewrite Nat2N.inj_add, N2Nat.id. reflexivity.
  - destruct (C106_length [] dm_w1 0 (wire_bytes dm_w2) O ltac:(constructor) B ltac:(lia)) as (_ & H & _). destruct H as (w' & _ & E & R).
    + vm_compute. discriminate.
    + vm_compute. lia.
    + exists w'. split; [exact E|]. intros ws F. apply R. exact F.
Qed.
(* 9 instead of 1: the second packet is data of the first, the third is read *)
Example C106_swallowed_at : exists w', file_holds [0;1;192;0;0;9;5;6; 0;2;192;0;0;1;7;8; 0;4;192;0;0;1;9;9]%N [w'; dm_w3] /\
  wire_bytes w' = [0;1;192;0;0;9;5;6; 0;2;192;0;0;1;7;8]%N.
Proof.
  destruct (C106_swallowed_refuted [] dm_w1 [dm_w2] [dm_w3] 9 [] (conj dm_ok dm_small)) as (w' & F & E).
  - constructor.
  - exact dm_nil_tail.
  - cbn. lia.
  - discriminate.
  - lia.
  - reflexivity.
  - exists w'. split; [exact F|exact E].
Qed.

(* data of the first packet damaged: filter --include 1 writes it as it is, and info reports the same *)
Example C106_filter_ex : exists fsa fsb,
  filter_command (fun _ => true) [(1, stream [dm_w1; dm_w2]); (2, [0;1;192;0;0;1;99;6; 0;2;192;0;0;1;7;8])]%N (mkFilterArgs [[49%N]] [] None None false 10%N 1%N) = Val (Success, fsa) /\
  filter_command (fun _ => true) [(1, stream [dm_w1; dm_w2]); (2, [0;1;192;0;0;1;99;6; 0;2;192;0;0;1;7;8])]%N (mkFilterArgs [[49%N]] [] None None false 10%N 2%N) = Val (Success, fsb) /\
  aget 10 fsa = Some [0;1;192;0;0;1;5;6]%N /\ aget 10 fsb = Some [0;1;192;0;0;1;99;6]%N.
Proof. eexists. eexists. split; [vm_compute; reflexivity|]. split; [vm_compute; reflexivity|]. split; reflexivity. Qed.
Example C106_info_ex : forall ovf,
  info_command ovf [(1, stream [dm_w1; dm_w2]); (2, [0;1;192;0;0;1;99;6; 0;2;192;0;0;1;7;8])]%N 2 false =
  info_command ovf [(1, stream [dm_w1; dm_w2]); (2, [0;1;192;0;0;1;99;6; 0;2;192;0;0;1;7;8])]%N 1 false.
Proof.
  intro ovf. apply (C106_info ovf _ 1%N 2%N [dm_w1; dm_w2] (stream [dm_w1; dm_w2]) [0;1;192;0;0;1;99;6; 0;2;192;0;0;1;7;8]%N).
  - split; [repeat constructor|]. split; [repeat constructor; cbn; lia|]. exists []. split; [symmetry; apply app_nil_r|]. split; [constructor|]. split; [exact dm_nil_tail|cbn; lia].
  - reflexivity.
  - repeat constructor.
  - intros k Hk i Hi. cbn [length] in Hk. destruct k as [|[|[|k]]]; [| | |lia]; destruct i as [|[|[|[|[|[|i]]]]]]; try lia; reflexivity.
  - reflexivity.
  - reflexivity.
Qed.

Example C106_diff_ex : exists ws' il ir, file_holds [0;1;192;0;0;1;99;6; 0;2;192;0;0;1;7;8]%N ws' /\
  yields pdec_next (pdec_new (reader_of (stream [dm_w1; dm_w2]))) il /\ yields pdec_next (pdec_new (reader_of [0;1;192;0;0;1;99;6; 0;2;192;0;0;1;7;8]%N)) ir /\
  diff_cmd sum8 il ir = Val (DiffCount 2).
Proof.
  destruct (C106_diff sum8 [dm_w1; dm_w2] (stream [dm_w1; dm_w2]) [0;1;192;0;0;1;99;6; 0;2;192;0;0;1;7;8]%N) as (ws' & il & ir & FH & _ & Y & Y' & _).
  - split; [repeat constructor|]. split; [repeat constructor; cbn; lia|]. exists []. split; [symmetry; apply app_nil_r|]. split; [constructor|]. split; [exact dm_nil_tail|cbn; lia].
  - discriminate.
  - reflexivity.
  - repeat constructor.
  - intros k Hk. cbn [length] in Hk. destruct k as [|[|[|k]]]; [| | |lia]; split; reflexivity.
  - exists ws', il, ir. split; [exact FH|]. split; [exact Y|]. split; [exact Y'|].
    assert (E1 : yields pdec_next (pdec_new (reader_of (stream [dm_w1; dm_w2]))) (fst (run pdec_next 9 (pdec_new (reader_of (stream [dm_w1; dm_w2])))))).
    { apply (run_yields _ _ _ 9). vm_compute. reflexivity. }
    assert (E2 : yields pdec_next (pdec_new (reader_of [0;1;192;0;0;1;99;6; 0;2;192;0;0;1;7;8]%N)) (fst (run pdec_next 9 (pdec_new (reader_of [0;1;192;0;0;1;99;6; 0;2;192;0;0;1;7;8]%N))))).
    { apply (run_yields _ _ _ 9). vm_compute. reflexivity. }
    rewrite (yields_unique _ _ _ _ _ _ Y E1), (yields_unique _ _ _ _ _ _ Y' E2). vm_compute. reflexivity.
Qed.
(* the version of the first packet damaged *)
Example C106_diff_blind_at : exists il ir, yields pdec_next (pdec_new (reader_of (stream [dm_w1; dm_w2]))) il /\
  yields pdec_next (pdec_new (reader_of (stream [mkWire (mkHeader 5 0 false 1 3 0 1) [5; 6]%N; dm_w2]))) ir /\ diff_cmd sum8 il ir = Val DiffOk.
Proof.
  apply (C106_diff_blind_refuted sum8 _ _ [] dm_w1 (mkWire (mkHeader 5 0 false 1 3 0 1) [5; 6]%N) [dm_w2]); try reflexivity;
    (split; [repeat constructor|]; split; [repeat constructor; cbn; lia|]; exists []; split; [symmetry; apply app_nil_r|]; split; [constructor|]; split; [exact dm_nil_tail|cbn; lia]).
Qed.
