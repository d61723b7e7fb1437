(* Generic lemmas about the vocabulary of Base.v and lists *)
From Verif Require Import Base.
Open Scope nat_scope.

Lemma get_some : forall A (v : list A) i a, nth_error v i = Some a -> get v i = Val a.
Proof. intros. unfold get. rewrite H. reflexivity. Qed.

Lemma get_nth : forall A (v : list A) i d, i < length v -> get v i = Val (nth i v d).
Proof. intros. unfold get. rewrite (nth_error_nth' v d H). reflexivity. Qed.

Lemma get_panic : forall A (v : list A) i, length v <= i -> get v i = Panic.
Proof. intros. unfold get. apply nth_error_None in H. rewrite H. reflexivity. Qed.

Lemma slice_ok : forall A (v : list A) a b, a <= b -> b <= length v ->
  slice v a b = Val (firstn (b - a) (skipn a v)).
Proof.
  intros. unfold slice. apply Nat.leb_le in H. apply Nat.leb_le in H0. rewrite H, H0. reflexivity.
Qed.

Lemma slice_panic : forall A (v : list A) a b, ~ (a <= b /\ b <= length v) -> slice v a b = Panic.
Proof.
  intros. unfold slice. destruct (a <=? b) eqn:E1, (b <=? length v) eqn:E2; cbn; try reflexivity.
  apply Nat.leb_le in E1, E2. tauto.
Qed.

Lemma slice0 : forall A (v : list A) b, b <= length v -> slice v 0 b = Val (firstn b v).
Proof. intros. rewrite slice_ok by lia. rewrite Nat.sub_0_r. reflexivity. Qed.

Lemma slice_from_ok : forall A (v : list A) a, a <= length v -> slice_from v a = Val (skipn a v).
Proof.
  intros. unfold slice_from. rewrite slice_ok by lia.
  rewrite firstn_all2; [reflexivity|]. rewrite skipn_length. lia.
Qed.

Lemma slice_from_panic : forall A (v : list A) a, length v < a -> slice_from v a = Panic.
Proof. intros. unfold slice_from. apply slice_panic. lia. Qed.

Lemma usub_ok : forall a b, b <= a -> usub a b = Val (a - b).
Proof. intros. unfold usub. apply Nat.leb_le in H. rewrite H. reflexivity. Qed.

Lemma usub_panic : forall a b, a < b -> usub a b = Panic.
Proof. intros. unfold usub. destruct (b <=? a) eqn:E; [apply Nat.leb_le in E; lia|reflexivity]. Qed.

Lemma bytes_ok_app : forall a b, bytes_ok (a ++ b) <-> bytes_ok a /\ bytes_ok b.
Proof. intros. unfold bytes_ok. apply Forall_app. Qed.

Lemma bytes_ok_firstn : forall n a, bytes_ok a -> bytes_ok (firstn n a).
Proof.
  intros n a H. rewrite <- (firstn_skipn n a) in H. apply bytes_ok_app in H. tauto.
Qed.
Lemma bytes_ok_skipn : forall n a, bytes_ok a -> bytes_ok (skipn n a).
Proof.
  intros n a H. rewrite <- (firstn_skipn n a) in H. apply bytes_ok_app in H. tauto.
Qed.
Lemma bytes_ok_repeat0 : forall n, bytes_ok (repeat 0%N n).
Proof. induction n; cbn; constructor; auto. lia. Qed.
Lemma bytes_ok_nth : forall l i, bytes_ok l -> (nth i l 0 < 256)%N.
Proof.
  intros l i H. destruct (Nat.lt_ge_cases i (length l)).
  - eapply Forall_forall in H; [exact H|]. apply nth_In. exact H0.
  - rewrite nth_overflow by assumption. lia.
Qed.

Lemma skipn_skipn : forall A (l : list A) a b, skipn a (skipn b l) = skipn (a + b) l.
Proof.
  intros A l a b. revert l a. induction b; intros l a.
  - rewrite Nat.add_0_r. reflexivity.
  - destruct l; [rewrite !skipn_nil; reflexivity|]. rewrite Nat.add_succ_r. cbn. apply IHb.
Qed.

Lemma firstn_app_le : forall A (a b : list A) n, n <= length a -> firstn n (a ++ b) = firstn n a.
Proof.
  intros. rewrite firstn_app. replace (n - length a) with 0 by lia. cbn. apply app_nil_r.
Qed.
Lemma firstn_app_exact : forall A (a b : list A), firstn (length a) (a ++ b) = a.
Proof. intros. rewrite firstn_app_le by lia. apply firstn_all. Qed.
Lemma skipn_app_exact : forall A (a b : list A), skipn (length a) (a ++ b) = b.
Proof. intros. rewrite skipn_app, Nat.sub_diag, skipn_all. reflexivity. Qed.
Lemma skipn_app_ge : forall A (a b : list A) n, length a <= n -> skipn n (a ++ b) = skipn (n - length a) b.
Proof. intros. rewrite skipn_app. rewrite skipn_all2 by lia. reflexivity. Qed.
Lemma skipn_app_le : forall A (a b : list A) n, n <= length a -> skipn n (a ++ b) = skipn n a ++ b.
Proof. intros. rewrite skipn_app. replace (n - length a) with 0 by lia. reflexivity. Qed.

Lemma firstn_add : forall A (l : list A) a b, firstn (a + b) l = firstn a l ++ firstn b (skipn a l).
Proof.
  intros A l a b. revert l. induction a; intros l; cbn; [reflexivity|].
  destruct l; cbn; [rewrite firstn_nil; reflexivity|]. f_equal. apply IHa.
Qed.

(* association maps *)
Lemma aget_aset_eq : forall V k (v : V) m, aget k (aset k v m) = Some v.
Proof.
  intros V k v m. induction m as [|[k' v'] m IH]; cbn.
  - rewrite N.eqb_refl. reflexivity.
  - destruct (N.eqb k k') eqn:E; cbn.
    + rewrite N.eqb_refl. reflexivity.
    + rewrite E. exact IH.
Qed.
Lemma aget_aset_neq : forall V k k' (v : V) m, k <> k' -> aget k (aset k' v m) = aget k m.
Proof.
  intros V k k' v m H. induction m as [|[k2 v2] m IH]; cbn.
  - destruct (N.eqb_spec k k'); [contradiction|reflexivity].
  - destruct (N.eqb_spec k' k2); cbn.
    + subst. destruct (N.eqb_spec k k2); [contradiction|]. reflexivity.
    + destruct (N.eqb k k2); [reflexivity|exact IH].
Qed.
Lemma aget_aset : forall V k k' (v : V) m,
  aget k (aset k' v m) = if N.eqb k k' then Some v else aget k m.
Proof.
  intros. destruct (N.eqb_spec k k'); [subst; apply aget_aset_eq|apply aget_aset_neq; assumption].
Qed.

Lemma in_aset : forall V k (v : V) m x, In x (aset k v m) -> x = (k, v) \/ In x m.
Proof.
  intros V k v m x. induction m as [|[k2 v2] m IH]; cbn.
  - intuition congruence.
  - destruct (N.eqb_spec k k2); cbn; intuition congruence.
Qed.
Lemma keys_aset : forall V k (v : V) m x, In x (map fst (aset k v m)) <-> x = k \/ In x (map fst m).
Proof.
  intros V k v m x. induction m as [|[k2 v2] m IH]; cbn.
  - intuition congruence.
  - destruct (N.eqb_spec k k2); cbn; [subst; intuition congruence|].
    rewrite IH. intuition congruence.
Qed.
Lemma nodup_aset : forall V k (v : V) m, NoDup (map fst m) -> NoDup (map fst (aset k v m)).
Proof.
  intros V k v m H. induction m as [|[k2 v2] m IH]; cbn.
  - constructor; [intuition|constructor].
  - cbn in H. inversion H; subst. destruct (N.eqb_spec k k2); cbn.
    + subst. constructor; assumption.
    + constructor; [|apply IH; assumption]. rewrite keys_aset. intuition congruence.
Qed.
Lemma aget_in : forall V k (v : V) m, aget k m = Some v -> In (k, v) m.
Proof.
  intros V k v m. induction m as [|[k2 v2] m IH]; cbn; [discriminate|].
  destruct (N.eqb_spec k k2); [intro E; injection E; intros; subst; auto|auto].
Qed.
Lemma aget_none : forall V k (m : amap V), aget k m = None <-> ~ In k (map fst m).
Proof.
  intros V k m. induction m as [|[k2 v2] m IH]; cbn; [intuition|].
  destruct (N.eqb_spec k k2); [split; [discriminate|intuition congruence]|].
  rewrite IH. intuition congruence.
Qed.
Lemma aget_nodup : forall V k (v : V) m, NoDup (map fst m) -> In (k, v) m -> aget k m = Some v.
Proof.
  intros V k v m. induction m as [|[k2 v2] m IH]; cbn; [intuition|].
  intros ND [E|I].
  - injection E; intros; subst. rewrite N.eqb_refl. reflexivity.
  - inversion ND; subst. destruct (N.eqb_spec k k2).
    + subst. exfalso. apply H1. change k2 with (fst (k2, v)). apply in_map. exact I.
    + apply IH; assumption.
Qed.

(* iterators *)
Lemma yields_det : forall S A (next : S -> outcome (option A * S)) s l1 l2,
  yields next s l1 -> yields next s l2 -> l1 = l2.
Proof.
  intros S A next s l1 l2 H. revert l2. induction H; intros l2 H2; inversion H2; subst; try congruence.
  replace a0 with a in * by congruence. replace s'0 with s' in * by congruence.
  f_equal. apply IHyields. assumption.
Qed.
Lemma yields_not_panics : forall S A (next : S -> outcome (option A * S)) s l1 l2,
  yields next s l1 -> panics_after next s l2 -> False.
Proof.
  intros S A next s l1 l2 H. revert l2. induction H; intros l2 H2; inversion H2; subst; try congruence.
  replace s'0 with s' in * by congruence. eauto.
Qed.
Lemma run_yields : forall S A (next : S -> outcome (option A * S)) fuel s l,
  run next fuel s = (l, Finished) -> yields next s l.
Proof.
  intros S A next fuel. induction fuel; intros s l H; cbn in H; [congruence|].
  destruct (next s) as [[o s']|] eqn:E; [|congruence].
  destruct o as [a|].
  - destruct (run next fuel s') as [l' e] eqn:R. injection H; intros; subst.
    eapply yields_cons; eauto.
  - injection H; intros; subst. eapply yields_nil; eauto.
Qed.
Lemma yields_run : forall S A (next : S -> outcome (option A * S)) s l fuel,
  yields next s l -> length l < fuel -> run next fuel s = (l, Finished).
Proof.
  intros S A next s l fuel H. revert fuel. induction H; intros fuel Hf; destruct fuel; cbn in *; try lia.
  - rewrite H. reflexivity.
  - rewrite H. rewrite IHyields by lia. reflexivity.
Qed.
