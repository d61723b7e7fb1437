(* Lemmas for P_Json.v. *)
From Coq Require Import String List.
From Verif Require Import Base S_Json M_Json.
Open Scope N_scope.

(* ---- induction on JSON values ---- *)
Section Ind.
Context (P : json -> Prop) (p_null : P JNull) (p_num : forall n, P (JNum n)) (p_str : forall s, P (JStr s))
        (p_arr : forall l, Forall P l -> P (JArr l)) (p_obj : forall l, Forall (fun kv => P (snd kv)) l -> P (JObj l)).
Fixpoint json_rec' (v : json) : P v :=
  match v with
  | JNull => p_null
  | JNum n => p_num n
  | JStr s => p_str s
  | JArr l => p_arr l ((fix go l : Forall P l := match l with [] => Forall_nil _ | v :: l => Forall_cons v (json_rec' v) (go l) end) l)
  | JObj l => p_obj l ((fix go l : Forall (fun kv => P (snd kv)) l :=
                          match l with [] => Forall_nil _ | kv :: l => Forall_cons kv (json_rec' (snd kv)) (go l) end) l)
  end.
End Ind.

(* ---- decimal numbers ---- *)
Lemma dec_loop_acc : forall fuel n acc, dec_loop fuel n acc = dec_loop fuel n [] ++ acc.
Proof.
  induction fuel as [|f IH]; intros n acc; [reflexivity|].
  cbn [dec_loop]. destruct (n / 10 =? 0); [reflexivity|].
  rewrite IH, (IH _ [48 + n mod 10]), <- app_assoc. reflexivity.
Qed.
Lemma dec_loop_enough : forall f g n acc, n < 2 ^ N.of_nat f -> n < 2 ^ N.of_nat g -> (0 < f)%nat -> (0 < g)%nat ->
  dec_loop f n acc = dec_loop g n acc.
Proof.
  induction f as [|f IH]; intros g n acc Hf Hg F G; [lia|].
  destruct g as [|g]; [lia|]. cbn [dec_loop].
  destruct (n / 10 =? 0) eqn:E; [reflexivity|]. apply N.eqb_neq in E.
  assert (n / 10 <= n / 2) by (apply N.div_le_compat_l; lia).
  rewrite Nat2N.inj_succ, N.pow_succ_r' in Hf, Hg.
  assert (A : n / 2 < 2 ^ N.of_nat f) by (apply N.div_lt_upper_bound; lia).
  assert (B : n / 2 < 2 ^ N.of_nat g) by (apply N.div_lt_upper_bound; lia).
  apply IH; try lia.
  - destruct f; [|lia]. change (2 ^ N.of_nat 0) with 1 in A. lia.
  - destruct g; [|lia]. change (2 ^ N.of_nat 0) with 1 in B. lia.
Qed.
Lemma log2_fuel : forall n, n < 2 ^ N.of_nat (S (N.to_nat (N.log2 n))).
Proof.
  intros n. rewrite Nat2N.inj_succ, N2Nat.id. destruct (N.eq_0_gt_0_cases n) as [->|H]; [reflexivity|].
  apply N.log2_spec in H. lia.
Qed.
Lemma dec_small : forall n, n < 10 -> dec n = [48 + n].
Proof.
  intros n H. unfold dec. cbn [dec_loop]. rewrite N.div_small by lia. rewrite N.mod_small by lia. reflexivity.
Qed.
Lemma dec_step : forall n, 10 <= n -> dec n = dec (n / 10) ++ [48 + n mod 10].
Proof.
  intros n H. unfold dec at 1. cbn [dec_loop].
  assert (A : n / 10 <> 0). { intros E. apply N.div_small_iff in E; lia. }
  replace (n / 10 =? 0) with false by (symmetry; apply N.eqb_neq; exact A).
  rewrite dec_loop_acc. f_equal. unfold dec.
  assert (L : 1 <= N.log2 n). { change 1 with (N.log2 2). apply N.log2_le_mono. lia. }
  apply dec_loop_enough; try lia; [|apply log2_fuel].
  rewrite N2Nat.id.
  assert (B : n < 2 ^ N.succ (N.log2 n)) by (apply N.log2_spec; lia).
  rewrite N.pow_succ_r' in B.
  assert (n / 10 <= n / 2) by (apply N.div_le_compat_l; lia).
  assert (n / 2 < 2 ^ N.log2 n) by (apply N.div_lt_upper_bound; lia). lia.
Qed.
Lemma dec_ind : forall P : N -> Prop, (forall n, n < 10 -> P n) -> (forall n, 10 <= n -> P (n / 10) -> P n) -> forall n, P n.
Proof.
  intros P A B.
  intros n. induction n as [n IH] using (well_founded_induction N.lt_wf_0).
  destruct (N.lt_ge_cases n 10) as [H|H]; [apply A; exact H|].
  apply B; [exact H|]. apply IH. apply N.div_lt; lia.
Qed.
Lemma dec_digits : forall n, Forall (fun c => digit c = true) (dec n).
Proof.
  apply dec_ind; intros n H.
  - rewrite dec_small by exact H. repeat constructor. unfold digit. apply andb_true_intro. split; apply N.leb_le; lia.
  - intros IH. rewrite dec_step by exact H. apply Forall_app. split; [exact IH|]. repeat constructor.
    assert (n mod 10 < 10) by (apply N.mod_lt; lia).
    unfold digit. apply andb_true_intro. split; apply N.leb_le; lia.
Qed.
Lemma dec_nonempty : forall n, dec n <> [].
Proof.
  intros n. destruct (N.lt_ge_cases n 10) as [H|H].
  - rewrite dec_small by exact H. discriminate.
  - rewrite dec_step by exact H. intros E. apply app_eq_nil in E. destruct E. discriminate.
Qed.

(* ---- tokens ---- *)
Lemma digit_range : forall c, 48 <= c -> c <= 57 -> digit c = true.
Proof. intros c A B. unfold digit. apply andb_true_intro. split; apply N.leb_le; lia. Qed.
Lemma digit_not_white : forall c, 48 <= c -> white c = false.
Proof.
  intros c H. unfold white. rewrite !(proj2 (N.eqb_neq _ _)) by lia. reflexivity.
Qed.
Lemma tokens_silent : forall m c m' cs, jstep m c = Some ([], m') -> tokens m (c :: cs) = tokens m' cs.
Proof. intros m c m' cs H. cbn [tokens]. rewrite H. destruct (tokens m' cs); reflexivity. Qed.
Lemma tokens_one : forall m c t m' cs, jstep m c = Some ([t], m') -> tokens m (c :: cs) = option_map (cons t) (tokens m' cs).
Proof. intros m c t m' cs H. cbn [tokens]. rewrite H. destruct (tokens m' cs); reflexivity. Qed.
Lemma tokens_dec : forall n rest, tokens Idle (dec n ++ rest) = tokens (InNum n) rest.
Proof.
  apply (dec_ind (fun n => forall rest, tokens Idle (dec n ++ rest) = tokens (InNum n) rest)); intros n H.
  - intros rest. rewrite dec_small by exact H. cbn [app]. apply tokens_silent. unfold jstep, begin.
    rewrite digit_not_white, digit_range by lia. do 3 f_equal. lia.
  - intros IH rest. rewrite dec_step by exact H. rewrite <- app_assoc. cbn [app]. rewrite IH.
    assert (L : n mod 10 < 10) by (apply N.mod_lt; lia).
    assert (A : n / 10 <> 0). { intros E. apply N.div_small_iff in E; lia. }
    apply tokens_silent. cbn [jstep]. rewrite digit_range by lia. rewrite (proj2 (N.eqb_neq _ _) A).
    do 3 f_equal. pose proof (N.div_mod n 10). lia.
Qed.
Definition delim (rest : list N) : Prop := match rest with [] => True | c :: _ => digit c = false end.
Lemma tokens_num_end : forall n rest, delim rest -> tokens (InNum n) rest = option_map (cons (TNum n)) (tokens Idle rest).
Proof.
  intros n [|c r] H; [reflexivity|]. cbn [delim] in H. cbn [tokens jstep]. rewrite H.
  destruct (begin c) as [[ts m]|]; [|reflexivity]. destruct (tokens m r); reflexivity.
Qed.
Lemma tokens_escape : forall c b rest, tokens (InStr b) (escape_byte c ++ rest) = tokens (InStr (c :: b)) rest.
Proof.
  intros c b rest. unfold escape_byte.
  destruct (c =? 34) eqn:E1; [apply N.eqb_eq in E1; subst c; cbn [app]; do 2 (erewrite tokens_silent by reflexivity); reflexivity|].
  destruct (c =? 92) eqn:E2; [apply N.eqb_eq in E2; subst c; cbn [app]; do 2 (erewrite tokens_silent by reflexivity); reflexivity|].
  destruct (c =? 8) eqn:E3; [apply N.eqb_eq in E3; subst c; cbn [app]; do 2 (erewrite tokens_silent by reflexivity); reflexivity|].
  destruct (c =? 9) eqn:E4; [apply N.eqb_eq in E4; subst c; cbn [app]; do 2 (erewrite tokens_silent by reflexivity); reflexivity|].
  destruct (c =? 10) eqn:E5; [apply N.eqb_eq in E5; subst c; cbn [app]; do 2 (erewrite tokens_silent by reflexivity); reflexivity|].
  destruct (c =? 12) eqn:E6; [apply N.eqb_eq in E6; subst c; cbn [app]; do 2 (erewrite tokens_silent by reflexivity); reflexivity|].
  destruct (c =? 13) eqn:E7; [apply N.eqb_eq in E7; subst c; cbn [app]; do 2 (erewrite tokens_silent by reflexivity); reflexivity|].
  destruct (c <? 32) eqn:E8.
  - apply N.ltb_lt in E8.
    assert (D : exists k, (k < 32)%nat /\ c = N.of_nat k) by (exists (N.to_nat c); split; lia).
    destruct D as (k & K & ->). clear - K.
    do 32 (destruct k as [|k]; [cbn [app]; do 6 (erewrite tokens_silent by reflexivity); reflexivity|]). lia.
  - cbn [app]. apply tokens_silent. cbn [jstep]. rewrite E1, E2, E8. reflexivity.
Qed.
Lemma tokens_string : forall s b rest,
  tokens (InStr b) (flat_map escape_byte s ++ 34 :: rest) = option_map (cons (TStr (rev b ++ s))) (tokens Idle rest).
Proof.
  induction s as [|c s IH]; intros b rest.
  - cbn [flat_map app]. rewrite app_nil_r. apply tokens_one. reflexivity.
  - cbn [flat_map]. rewrite <- app_assoc, tokens_escape, IH. cbn [rev]. rewrite <- app_assoc. reflexivity.
Qed.
Lemma tokens_quoted : forall s rest, tokens Idle (quoted s ++ rest) = option_map (cons (TStr s)) (tokens Idle rest).
Proof.
  intros s rest. unfold quoted. rewrite <- !app_assoc. cbn [app].
  erewrite tokens_silent by reflexivity. apply (tokens_string s []).
Qed.
Lemma tokens_blank : forall k rest, tokens Idle (repeat 32 k ++ rest) = tokens Idle rest.
Proof. induction k as [|k IH]; intros rest; [reflexivity|]. cbn [repeat app]. erewrite tokens_silent by reflexivity. apply IH. Qed.
Lemma tokens_indentation : forall k rest, tokens Idle (indentation k ++ rest) = tokens Idle rest.
Proof. intros. apply tokens_blank. Qed.

Section Items.
Context (toks : json -> list jtoken).
Fixpoint arr_toks (first : bool) (l : list json) : list jtoken :=
  match l with [] => [] | v :: l => (if first then [] else [TComma]) ++ toks v ++ arr_toks false l end.
Fixpoint obj_toks (first : bool) (l : list (list N * json)) : list jtoken :=
  match l with [] => [] | (k, v) :: l => (if first then [] else [TComma]) ++ TStr k :: TColon :: toks v ++ obj_toks false l end.
End Items.
Fixpoint toks (v : json) : list jtoken :=
  match v with
  | JNull => [TNull]
  | JNum n => [TNum n]
  | JStr s => [TStr s]
  | JArr l => TOpenA :: arr_toks toks true l ++ [TCloseA]
  | JObj l => TOpen :: obj_toks toks true l ++ [TClose]
  end.
Section Text.
Context (ind : nat) (pretty : json -> list N).
Fixpoint arr_text (first : bool) (l : list json) : list N :=
  match l with [] => [] | v :: l => (if first then [10] else [44; 10]) ++ indentation (S ind) ++ pretty v ++ arr_text false l end.
Fixpoint obj_text (first : bool) (l : list (list N * json)) : list N :=
  match l with
  | [] => []
  | (k, v) :: l => (if first then [10] else [44; 10]) ++ indentation (S ind) ++ quoted k ++ [58; 32] ++ pretty v ++ obj_text false l
  end.
End Text.
Lemma pretty_arr : forall ind v l,
  pretty ind (JArr (v :: l)) = [91] ++ arr_text ind (pretty (S ind)) true (v :: l) ++ [10] ++ indentation ind ++ [93].
Proof. reflexivity. Qed.
Lemma pretty_obj : forall ind kv l,
  pretty ind (JObj (kv :: l)) = [123] ++ obj_text ind (pretty (S ind)) true (kv :: l) ++ [10] ++ indentation ind ++ [125].
Proof. reflexivity. Qed.

Lemma option_map_app : forall (a b : list jtoken) x, option_map (app a) (option_map (app b) x) = option_map (app (a ++ b)) x.
Proof. intros a b [x|]; cbn [option_map]; [rewrite app_assoc|]; reflexivity. Qed.
Lemma option_map_cons : forall (a : jtoken) b x, option_map (cons a) (option_map (app b) x) = option_map (app (a :: b)) x.
Proof. intros a b [x|]; reflexivity. Qed.
Lemma option_map_cons1 : forall (a : jtoken) x, option_map (cons a) x = option_map (app [a]) x.
Proof. intros a [x|]; reflexivity. Qed.
Lemma option_map_nil : forall (x : option (list jtoken)), option_map (app []) x = x.
Proof. intros [x|]; reflexivity. Qed.

Definition lexes (v : json) : Prop :=
  forall ind rest, delim rest -> tokens Idle (pretty ind v ++ rest) = option_map (app (toks v)) (tokens Idle rest).
Lemma delim_arr : forall ind p l rest, delim rest -> delim (arr_text ind p false l ++ rest).
Proof. intros ind p [|v l] rest H; [exact H|]. reflexivity. Qed.
Lemma delim_obj : forall ind p l rest, delim rest -> delim (obj_text ind p false l ++ rest).
Proof. intros ind p [|[k v] l] rest H; [exact H|]. reflexivity. Qed.
Lemma lexes_arr : forall ind l, Forall lexes l -> forall first rest, delim rest ->
  tokens Idle (arr_text ind (pretty (S ind)) first l ++ rest) = option_map (app (arr_toks toks first l)) (tokens Idle rest).
Proof.
  intros ind l F. induction F as [|v l V F IH]; intros first rest D.
  - cbn [arr_text arr_toks app]. rewrite option_map_nil. reflexivity.
  - cbn [arr_text arr_toks].
    assert (E : tokens Idle ((indentation (S ind) ++ pretty (S ind) v ++ arr_text ind (pretty (S ind)) false l) ++ rest)
                = option_map (app (toks v ++ arr_toks toks false l)) (tokens Idle rest)).
    { rewrite <- !app_assoc. rewrite tokens_indentation, V by (apply delim_arr; exact D).
      rewrite IH by exact D. apply option_map_app. }
    destruct first; rewrite <- app_assoc.
    + cbn [app]. erewrite tokens_silent by reflexivity. exact E.
    + cbn [app]. erewrite tokens_one by reflexivity. erewrite tokens_silent by reflexivity. rewrite E.
      apply option_map_cons.
Qed.
Lemma lexes_obj : forall ind l, Forall (fun kv => lexes (snd kv)) l -> forall first rest, delim rest ->
  tokens Idle (obj_text ind (pretty (S ind)) first l ++ rest) = option_map (app (obj_toks toks first l)) (tokens Idle rest).
Proof.
  intros ind l F. induction F as [|[k v] l V F IH]; intros first rest D.
  - cbn [obj_text obj_toks app]. rewrite option_map_nil. reflexivity.
  - cbn [obj_text obj_toks]. cbn [snd] in V.
    assert (E : tokens Idle ((indentation (S ind) ++ quoted k ++ [58; 32] ++ pretty (S ind) v ++ obj_text ind (pretty (S ind)) false l) ++ rest)
                = option_map (app (TStr k :: TColon :: toks v ++ obj_toks toks false l)) (tokens Idle rest)).
    { rewrite <- !app_assoc. rewrite tokens_indentation, tokens_quoted.
      cbn [app]. erewrite tokens_one by reflexivity. erewrite tokens_silent by reflexivity.
      rewrite V by (apply delim_obj; exact D).
      rewrite IH by exact D. rewrite option_map_app, !option_map_cons. reflexivity. }
    cbn [app] in E. destruct first; rewrite <- app_assoc.
    + cbn [app]. erewrite tokens_silent by reflexivity. exact E.
    + cbn [app]. erewrite tokens_one by reflexivity. erewrite tokens_silent by reflexivity. rewrite E.
      destruct (tokens Idle rest); reflexivity.
Qed.
Lemma lexes_all : forall v, lexes v.
Proof.
  apply json_rec'.
  - intros ind rest D. cbn [pretty]. change (text "null") with [110; 117; 108; 108]. cbn [app toks].
    do 3 (erewrite tokens_silent by reflexivity). erewrite tokens_one by reflexivity. apply option_map_cons1.
  - intros n ind rest D. cbn [pretty toks]. rewrite tokens_dec, tokens_num_end by exact D. apply option_map_cons1.
  - intros s ind rest D. cbn [pretty toks]. rewrite tokens_quoted. apply option_map_cons1.
  - intros l F ind rest D. destruct l as [|v l].
    + cbn [pretty toks arr_toks app]. change (text "[]") with [91; 93]. cbn [app].
      do 2 (erewrite tokens_one by reflexivity). destruct (tokens Idle rest); reflexivity.
    + rewrite pretty_arr, <- !app_assoc. cbn [app]. erewrite tokens_one by reflexivity.
      rewrite lexes_arr by (assumption || reflexivity). erewrite tokens_silent by reflexivity.
      rewrite tokens_indentation. erewrite tokens_one by reflexivity.
      rewrite option_map_cons. cbn [toks]. destruct (tokens Idle rest); cbn [option_map]; [|reflexivity].
      cbn [app]. rewrite <- app_assoc. reflexivity.
  - intros l F ind rest D. destruct l as [|v l].
    + cbn [pretty toks obj_toks app]. change (text "{}") with [123; 125]. cbn [app].
      do 2 (erewrite tokens_one by reflexivity). destruct (tokens Idle rest); reflexivity.
    + rewrite pretty_obj, <- !app_assoc. cbn [app]. erewrite tokens_one by reflexivity.
      rewrite lexes_obj by (assumption || reflexivity). erewrite tokens_silent by reflexivity.
      rewrite tokens_indentation. erewrite tokens_one by reflexivity.
      rewrite option_map_cons. cbn [toks]. destruct (tokens Idle rest); cbn [option_map]; [|reflexivity].
      cbn [app]. rewrite <- app_assoc. reflexivity.
Qed.
Lemma tokens_pretty : forall v, tokens Idle (pretty 0 v) = Some (toks v).
Proof.
  intros v. pose proof (lexes_all v 0%nat [] I) as E. rewrite app_nil_r in E. rewrite E. cbn [tokens option_map].
  rewrite app_nil_r. reflexivity.
Qed.

(* ---- values ---- *)
Definition parses (v : json) : Prop :=
  forall fuel r, (2 * length (toks v) <= fuel)%nat -> value fuel (toks v ++ r) = Some (v, r).
Lemma toks_head : forall v, exists t ts, toks v = t :: ts /\ t <> TCloseA /\ t <> TClose.
Proof. intros [|n|s|l|l]; cbn [toks]; eexists; eexists; (split; [reflexivity|split; discriminate]). Qed.
Lemma parses_arr : forall l v, Forall parses (v :: l) -> forall fuel r,
  (2 * length (arr_toks toks true (v :: l)) + 1 <= fuel)%nat ->
  elements fuel (arr_toks toks true (v :: l) ++ TCloseA :: r) = Some (v :: l, r).
Proof.
  induction l as [|w l IH]; intros v F fuel r L; (destruct fuel as [|fuel]; [lia|]).
  - cbn [arr_toks elements app] in *. rewrite app_nil_r in *. inversion F as [|? ? V ?]; subst.
    rewrite V by lia. reflexivity.
  - inversion F as [|? ? V F']; subst. specialize (IH w F').
    cbn [elements]. change (arr_toks toks true (v :: w :: l)) with (toks v ++ TComma :: arr_toks toks true (w :: l)) in *.
    rewrite <- app_assoc. cbn [app]. rewrite app_length in L. cbn [length] in L.
    rewrite V by lia. rewrite IH by lia. reflexivity.
Qed.
Lemma parses_obj : forall l k v, Forall (fun kv => parses (snd kv)) ((k, v) :: l) -> forall fuel r,
  (2 * length (obj_toks toks true ((k, v) :: l)) + 1 <= fuel)%nat ->
  members fuel (obj_toks toks true ((k, v) :: l) ++ TClose :: r) = Some ((k, v) :: l, r).
Proof.
  induction l as [|[k' w] l IH]; intros k v F fuel r L; (destruct fuel as [|fuel]; [lia|]).
  - cbn [obj_toks members app length] in *. rewrite app_nil_r in *. inversion F as [|? ? V ?]; subst. cbn [snd] in V.
    rewrite V by lia. reflexivity.
  - inversion F as [|? ? V F']; subst. cbn [snd] in V. specialize (IH k' w F').
    change (obj_toks toks true ((k, v) :: (k', w) :: l)) with (TStr k :: TColon :: toks v ++ TComma :: obj_toks toks true ((k', w) :: l)) in *.
    cbn [members app]. rewrite <- app_assoc. cbn [app]. cbn [length] in L. rewrite app_length in L. cbn [length] in L.
    rewrite V by lia. rewrite IH by lia. reflexivity.
Qed.
Lemma parses_all : forall v, parses v.
Proof.
  apply json_rec'.
  - intros [|fuel] r L; [cbn in L; lia|]. reflexivity.
  - intros n [|fuel] r L; [cbn in L; lia|]. reflexivity.
  - intros n [|fuel] r L; [cbn in L; lia|]. reflexivity.
  - intros l F fuel r L. cbn [toks length] in L. rewrite app_length in L. cbn [length] in L.
    destruct fuel as [|fuel]; [lia|].
    destruct l as [|v l]; [reflexivity|].
    cbn [toks app]. rewrite <- app_assoc. cbn [app].
    destruct (toks_head v) as (t & ts & E & N1 & N2).
    pose proof (parses_arr l v F fuel r ltac:(lia)) as P.
    cbn [arr_toks app] in *. rewrite E in *. cbn [app] in *. cbn [value].
    rewrite <- app_assoc in *. rewrite P. destruct t; try reflexivity. contradiction.
  - intros l F fuel r L. cbn [toks length] in L. rewrite app_length in L. cbn [length] in L.
    destruct fuel as [|fuel]; [lia|].
    destruct l as [|[k v] l]; [reflexivity|].
    cbn [toks app]. rewrite <- app_assoc. cbn [app].
    pose proof (parses_obj l k v F fuel r ltac:(lia)) as P.
    cbn [obj_toks app] in *. cbn [value]. rewrite P. reflexivity.
Qed.
Lemma read_pretty : forall v, read_json (pretty 0 v) = Some v.
Proof.
  intros v. unfold read_json. rewrite tokens_pretty.
  pose proof (parses_all v (2 * length (toks v))%nat [] (Nat.le_refl _)) as P. rewrite app_nil_r in P. rewrite P. reflexivity.
Qed.

(* ---- a value that is not complete ---- *)
Lemma value_more : forall f,
  (forall ts v r f' x, (f <= f')%nat -> value f ts = Some (v, r) -> value f' (ts ++ x) = Some (v, r ++ x)) /\
  (forall ts v r f' x, (f <= f')%nat -> elements f ts = Some (v, r) -> elements f' (ts ++ x) = Some (v, r ++ x)) /\
  (forall ts v r f' x, (f <= f')%nat -> members f ts = Some (v, r) -> members f' (ts ++ x) = Some (v, r ++ x)).
Proof.
  induction f as [|f (IV & IE & IM)]; [repeat split; intros; discriminate|].
  repeat split; intros ts v r f' x L H; (destruct f' as [|f']; [lia|]); apply Nat.succ_le_mono in L.
  - cbn [value] in *. destruct ts as [|t ts]; [discriminate|]. cbn [app].
    destruct t; try discriminate; try (injection H as <- <-; reflexivity).
    + destruct ts as [|t ts]; [destruct f; discriminate|].
      destruct (members f (t :: ts)) as [[l q]|] eqn:E.
      * pose proof (IM _ _ _ f' x L E) as K. cbn [app] in *. rewrite K. destruct t; injection H as <- <-; reflexivity.
      * destruct t; try discriminate. cbn [app]. injection H as <- <-. reflexivity.
    + destruct ts as [|t ts]; [destruct f as [|[|f]]; discriminate|].
      destruct (elements f (t :: ts)) as [[l q]|] eqn:E.
      * pose proof (IE _ _ _ f' x L E) as K. cbn [app] in *. rewrite K. destruct t; injection H as <- <-; reflexivity.
      * destruct t; try discriminate. cbn [app]. injection H as <- <-. reflexivity.
  - cbn [elements] in *. destruct (value f ts) as [[w q]|] eqn:E; [|discriminate].
    rewrite (IV _ _ _ f' x L E). destruct q as [|t q]; [discriminate|]. cbn [app].
    destruct t; try discriminate; [injection H as <- <-; reflexivity|].
    destruct (elements f q) as [[l q']|] eqn:E2; [|discriminate]. rewrite (IE _ _ _ f' x L E2). injection H as <- <-. reflexivity.
  - cbn [members] in *. destruct ts as [|t ts]; [discriminate|]. destruct t; try discriminate.
    destruct ts as [|t ts]; [discriminate|]. destruct t; try discriminate. cbn [app].
    destruct (value f ts) as [[w q]|] eqn:E; [|discriminate].
    rewrite (IV _ _ _ f' x L E). destruct q as [|t q]; [discriminate|]. cbn [app].
    destruct t; try discriminate; [injection H as <- <-; reflexivity|].
    destruct (members f q) as [[l q']|] eqn:E2; [|discriminate]. rewrite (IM _ _ _ f' x L E2). injection H as <- <-. reflexivity.
Qed.
(* an object without its last character *)
Lemma object_cut : forall kv l, exists t, pretty 0 (JObj (kv :: l)) = t ++ [10; 125] /\ read_json (t ++ [10]) = None.
Proof.
  intros kv l. exists ([123] ++ obj_text 0 (pretty 1) true (kv :: l)). split.
  - rewrite pretty_obj. change (indentation 0) with (@nil N). rewrite <- app_assoc. reflexivity.
  - assert (T : tokens Idle (([123] ++ obj_text 0 (pretty 1) true (kv :: l)) ++ [10]) = Some (TOpen :: obj_toks toks true (kv :: l))).
    { rewrite <- app_assoc. cbn [app]. erewrite tokens_one by reflexivity. rewrite lexes_obj; [|apply Forall_forall; intros; apply lexes_all|reflexivity].
      erewrite tokens_silent by reflexivity. cbn [tokens option_map]. rewrite app_nil_r. reflexivity. }
    unfold read_json. rewrite T. set (ts := TOpen :: obj_toks toks true (kv :: l)) in *.
    destruct (value (2 * length ts) ts) as [[v r]|] eqn:E; [|reflexivity]. destruct r as [|t r]; [|reflexivity]. exfalso.
    pose proof (parses_all (JObj (kv :: l)) (2 * length (toks (JObj (kv :: l))))%nat [] (Nat.le_refl _)) as P. rewrite app_nil_r in P.
    assert (Q : toks (JObj (kv :: l)) = ts ++ [TClose]) by reflexivity. rewrite Q in P.
    rewrite (proj1 (value_more (2 * length ts)) ts v [] (2 * length (ts ++ [TClose]))%nat [TClose]) in P; [|rewrite app_length; cbn [length]; lia|exact E].
    discriminate P.
Qed.
