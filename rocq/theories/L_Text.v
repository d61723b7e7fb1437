(* Lemmas for P_Text.v. *)
From Coq Require Import String List.
From Verif Require Import Base S_Json S_Cli S_Text M_Reader M_Cli M_Main M_Json M_Stdout M_Text L_Json.
Open Scope N_scope.

Lemma dec_range : forall n, Forall (fun c => 48 <= c <= 57) (dec n).
Proof.
  intros n. eapply Forall_impl; [|apply dec_digits]. intros c H. unfold digit in H. apply andb_prop in H. destruct H as (A & B).
  apply N.leb_le in A, B. lia.
Qed.
Lemma decimal_snoc : forall s c, decimal (s ++ [c]) = 10 * decimal s + (c - 48).
Proof.
  induction s as [|d s IH]; intros c; cbn [app decimal length]; [lia|].
  rewrite IH, app_length. cbn [length]. rewrite Nat.add_1_r, Nat2N.inj_succ, N.pow_succ_r'. lia.
Qed.
Lemma decimal_dec : forall n, decimal (dec n) = n.
Proof.
  apply dec_ind; intros n H.
  - rewrite dec_small by exact H. cbn [decimal length]. lia.
  - intros IH. rewrite dec_step by exact H. rewrite decimal_snoc, IH. pose proof (N.div_mod n 10). lia.
Qed.
Lemma dec_number : forall n, is_number (dec n) n.
Proof. intros n. split; [split; [apply dec_nonempty|apply dec_range]|apply decimal_dec]. Qed.
Lemma dec_length : forall k n, n < 10 ^ N.of_nat k -> (1 <= k)%nat -> (length (dec n) <= k)%nat.
Proof.
  induction k as [|k IH]; intros n L H; [lia|].
  destruct (N.lt_ge_cases n 10) as [S1|S1]; [rewrite dec_small by exact S1; cbn; lia|].
  rewrite dec_step by exact S1. rewrite app_length. cbn [length].
  rewrite Nat2N.inj_succ, N.pow_succ_r' in L.
  destruct k as [|k]; [cbn in L; lia|].
  assert (length (dec (n / 10)) <= S k)%nat; [|lia]. apply IH; [|lia]. apply N.div_lt_upper_bound; lia.
Qed.
Lemma pad_length : forall w s, length (pad w s) = Nat.max w (length s).
Proof. intros w s. unfold pad. rewrite app_length, repeat_length. lia. Qed.
Lemma pad_fits : forall w s, (length s <= w)%nat -> length (pad w s) = w.
Proof. intros. rewrite pad_length. lia. Qed.
Definition clean (s : list N) : Prop := ~ In 10 s.
Lemma dec_clean : forall n, clean (dec n).
Proof. intros n H. pose proof (dec_range n) as F. rewrite Forall_forall in F. apply F in H. lia. Qed.
Lemma repeat_clean : forall c n, c <> 10 -> clean (repeat c n).
Proof. intros c n H I. apply repeat_spec in I. congruence. Qed.
Lemma app_clean : forall a b, clean a -> clean b -> clean (a ++ b).
Proof. intros a b A B H. apply in_app_or in H. destruct H; [apply A|apply B]; assumption. Qed.
Lemma pad_clean : forall w s, clean s -> clean (pad w s).
Proof. intros w s H. apply app_clean; [apply repeat_clean; discriminate|exact H]. Qed.
Lemma decZ_clean : forall z, clean (decZ z).
Proof. intros z. unfold decZ. destruct (z <? 0)%Z; [|apply dec_clean]. intros [H|H]; [discriminate|]. revert H. apply dec_clean. Qed.
(* text constants *)
Definition cleanb (s : list N) : bool := forallb (fun c => negb (c =? 10)) s.
Lemma clean_b : forall s, cleanb s = true -> clean s.
Proof.
  intros s H I. unfold cleanb in H. rewrite forallb_forall in H. apply H in I. discriminate I.
Qed.

(* ---- words ---- *)
Definition wordy (s : list N) : Prop := s <> [] /\ ~ In 32 s.
Lemma words_cur : forall s cur rest, ~ In 32 s -> words_from cur (s ++ rest) = words_from (rev s ++ cur) rest.
Proof.
  induction s as [|c s IH]; intros cur rest H; [reflexivity|]. cbn [app words_from rev].
  replace (c =? 32) with false by (symmetry; apply N.eqb_neq; intros ->; apply H; left; reflexivity).
  rewrite IH by (intros X; apply H; right; exact X). rewrite <- app_assoc. reflexivity.
Qed.
Lemma words_blank : forall k rest, words_from [] (repeat 32 k ++ rest) = words_from [] rest.
Proof. induction k as [|k IH]; intros rest; [reflexivity|]. cbn [repeat app words_from]. apply IH. Qed.
Lemma words_flush : forall cur rest, cur <> [] -> words_from cur (32 :: rest) = rev cur :: words_from [] rest.
Proof. intros [|c cur] rest H; [contradiction|]. reflexivity. Qed.
Lemma words_last : forall cur, cur <> [] -> words_from cur [] = [rev cur].
Proof. intros [|c cur] H; [contradiction|]. reflexivity. Qed.
Lemma rev_nonempty : forall (s : list N), s <> [] -> rev s <> [].
Proof. intros s H E. apply H. rewrite <- (rev_involutive s), E. reflexivity. Qed.
Lemma words_pad : forall w s rest, wordy s -> words_of (pad w s ++ 32 :: rest) = s :: words_of rest.
Proof.
  intros w s rest (NE & NI). unfold words_of, pad. rewrite <- app_assoc, words_blank, words_cur by exact NI.
  rewrite app_nil_r, words_flush by (apply rev_nonempty; exact NE). rewrite rev_involutive. reflexivity.
Qed.
Lemma words_pad_last : forall w s, wordy s -> words_of (pad w s) = [s].
Proof.
  intros w s (NE & NI). unfold words_of, pad. rewrite <- (app_nil_r s), words_blank, words_cur by exact NI.
  rewrite app_nil_r, words_last by (apply rev_nonempty; exact NE). rewrite rev_involutive, app_nil_r. reflexivity.
Qed.
Lemma words_skip : forall rest, words_of (32 :: rest) = words_of rest.
Proof. reflexivity. Qed.
Lemma dec_wordy : forall n, wordy (dec n).
Proof.
  intros n. split; [apply dec_nonempty|]. intros H. pose proof (dec_range n) as F. rewrite Forall_forall in F. apply F in H. lia.
Qed.
Lemma decZ_wordy : forall z, wordy (decZ z).
Proof.
  intros z. unfold decZ. destruct (z <? 0)%Z; [|apply dec_wordy]. split; [discriminate|]. intros [H|H]; [discriminate|].
  revert H. apply dec_wordy.
Qed.
Lemma decZ_integer : forall z, is_integer (decZ z) z.
Proof.
  intros z. unfold decZ. destruct (Z.ltb_spec z 0).
  - right. eexists. exists (Z.to_N (- z)). split; [reflexivity|]. split; [apply dec_number|]. split; lia.
  - left. exists (Z.to_N z). split; [apply dec_number|lia].
Qed.
Lemma shows_pad : forall w n, shows (pad w (dec n)) n.
Proof. intros w n. exists (dec n). split; [apply words_pad_last, dec_wordy|apply dec_number]. Qed.

(* ---- lines ---- *)
Lemma lines_cur : forall s cur rest, clean s -> lines_from cur (s ++ 10 :: rest) = (rev cur ++ s) :: lines_from [] rest.
Proof.
  induction s as [|c s IH]; intros cur rest H; cbn [app lines_from].
  - rewrite app_nil_r. reflexivity.
  - replace (c =? 10) with false by (symmetry; apply N.eqb_neq; intros ->; apply H; left; reflexivity).
    rewrite IH by (intros X; apply H; right; exact X). cbn [rev]. rewrite <- app_assoc. reflexivity.
Qed.
Lemma lines_newline : forall ls, Forall clean ls -> lines_of (concat (map newline ls)) = ls.
Proof.
  intros ls F. induction F as [|s ls H F IH]; [reflexivity|]. cbn [map concat]. unfold newline at 1, NEWLINE.
  rewrite <- app_assoc. cbn [app]. unfold lines_of. rewrite lines_cur by exact H. cbn [rev app]. f_equal. exact IH.
Qed.
Lemma newline_ends : forall ls, ls <> [] -> exists t, concat (map newline ls) = t ++ [10].
Proof.
  intros ls H. destruct (exists_last H) as (ls' & s & ->). rewrite map_app, concat_app. cbn [map concat].
  exists (concat (map newline ls') ++ s). unfold newline, NEWLINE. rewrite app_nil_r, <- app_assoc. reflexivity.
Qed.

(* ---- columns ---- *)
Lemma cells_app : forall w ws a rest, length a = w -> cells (w :: ws) (a ++ rest) = a :: cells ws rest.
Proof.
  intros w ws a rest <-. cbn [cells]. rewrite firstn_app, firstn_all, Nat.sub_diag, firstn_O, app_nil_r.
  rewrite skipn_app, skipn_all, Nat.sub_diag. reflexivity.
Qed.
Lemma cells_last : forall w a, length a = w -> cells [w] a = [a].
Proof. intros w a <-. cbn [cells]. rewrite firstn_all. reflexivity. Qed.
Lemma number_unique : forall w n m, is_number w n -> is_number w m -> n = m.
Proof. intros w n m (_ & <-) (_ & <-). reflexivity. Qed.

(* ---- i32 ---- *)
Lemma as_i32_spec : forall n, (- 2 ^ 31 <= as_i32 n < 2 ^ 31)%Z /\ exists q, (as_i32 n = Z.of_N n + q * 2 ^ 32)%Z.
Proof.
  intros n. unfold as_i32. pose proof (Z.mod_pos_bound (Z.of_N n) (2 ^ 32) ltac:(lia)) as B.
  pose proof (Z.div_mod (Z.of_N n) (2 ^ 32) ltac:(lia)) as D.
  destruct (Z.ltb_spec (Z.of_N n mod 2 ^ 32) (2 ^ 31)) as [L|L].
  - split; [lia|]. exists (- (Z.of_N n / 2 ^ 32))%Z. lia.
  - split; [lia|]. exists (- (Z.of_N n / 2 ^ 32) - 1)%Z. lia.
Qed.
Lemma as_i32_small : forall n, n < 2 ^ 31 -> as_i32 n = Z.of_N n.
Proof.
  intros n H. unfold as_i32. assert (Z.of_N n < 2 ^ 31)%Z by (change (2 ^ 31)%Z with (Z.of_N (2 ^ 31)); lia).
  rewrite Z.mod_small by lia. rewrite (proj2 (Z.ltb_lt _ _)) by lia. reflexivity.
Qed.
Lemma sub_i32_spec : forall ovf l r d, sub_i32 ovf (as_i32 l) (as_i32 r) = Some d ->
  (- 2 ^ 31 <= d < 2 ^ 31)%Z /\ ((Z.of_N l - Z.of_N r - d) mod 2 ^ 32 = 0)%Z.
Proof.
  intros ovf l r d H. destruct (as_i32_spec l) as (Bl & ql & El). destruct (as_i32_spec r) as (Br & qr & Er).
  unfold sub_i32 in H. set (x := (as_i32 l - as_i32 r)%Z) in *.
  destruct ((- 2 ^ 31 <=? x)%Z && (x <? 2 ^ 31)%Z) eqn:C.
  - injection H as <-. apply andb_prop in C. destruct C as (C1 & C2). apply Z.leb_le in C1. apply Z.ltb_lt in C2. split; [lia|].
    unfold x. rewrite El, Er. replace (Z.of_N l - Z.of_N r - (Z.of_N l + ql * 2 ^ 32 - (Z.of_N r + qr * 2 ^ 32)))%Z with ((qr - ql) * 2 ^ 32)%Z by lia.
    apply Z_mod_mult.
  - destruct ovf; [discriminate|]. injection H as <-. apply andb_false_iff in C. rewrite Z.leb_gt, Z.ltb_ge in C.
    destruct (Z.ltb_spec x 0) as [L|L]; (split; [lia|]); unfold x; rewrite El, Er; change (Z.pow_pos 2 32) with (2 ^ 32)%Z.
    + replace (Z.of_N l - Z.of_N r - (Z.of_N l + ql * 2 ^ 32 - (Z.of_N r + qr * 2 ^ 32) + 2 ^ 32))%Z with ((qr - ql - 1) * 2 ^ 32)%Z by lia.
      apply Z_mod_mult.
    + replace (Z.of_N l - Z.of_N r - (Z.of_N l + ql * 2 ^ 32 - (Z.of_N r + qr * 2 ^ 32) - 2 ^ 32))%Z with ((qr - ql + 1) * 2 ^ 32)%Z by lia.
      apply Z_mod_mult.
Qed.
