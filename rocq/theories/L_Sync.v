From Verif Require Import Base S_Bits M_Reader M_Bytes M_Sync S_Packet S_Sync L_Base L_Bits L_Timecode L_Reader.
Open Scope nat_scope.

(* ---- readers as visible token streams ---- *)
Lemma vdata : forall bs es, bs <> [] -> vtranscript (EvData bs :: es) = map TByte bs ++ vtranscript es.
Proof. intros. destruct bs; [congruence|reflexivity]. Qed.

Definition final_kind (f : final) : iokind := match f with AtEof => UnexpectedEof | Failing c => OtherIo c end.

Lemma read1_spec : forall r,
  exists r', fin r' = fin r /\
  match vtranscript (evs r) with
  | [] => read 1 r = (match fin r with AtEof => inl [] | Failing c => inr (OtherIo c) end, r') /\ vtranscript (evs r') = []
  | TByte b :: ts => read 1 r = (inl [b], r') /\ vtranscript (evs r') = ts
  | TErr k :: ts => read 1 r = (inr k, r') /\ vtranscript (evs r') = ts
  | TEof :: ts => read 1 r = (inl [], r') /\ vtranscript (evs r') = ts
  end.
Proof.
  intros [es f]. destruct es as [|[bs|k] es].
  - exists (mkReader [] f). split; [reflexivity|]. cbn. destruct f; auto.
  - destruct bs as [|b bs].
    + exists (mkReader es f). split; [reflexivity|]. cbn. auto.
    + exists (mkReader (match bs with [] => es | rest => EvData rest :: es end) f). split; [reflexivity|].
      cbn [evs fin]. rewrite vdata by discriminate. cbn [map app].
      destruct bs; split; reflexivity.
  - exists (mkReader es f). split; [reflexivity|]. cbn. auto.
Qed.

(* read_exact on visible tokens *)
Fixpoint re_vtok (n : nat) (ts : list token) (f : final) : list N * option iokind * list token :=
  match n with
  | O => ([], None, ts)
  | S n' =>
      (fix skip (ts : list token) : list N * option iokind * list token :=
       match ts with
      | [] => ([], Some (final_kind f), [])
      | TByte b :: ts => let '(g, s, ts') := re_vtok n' ts f in (b :: g, s, ts')
      | TErr Interrupted :: ts => skip ts
      | TErr k :: ts => ([], Some k, ts)
      | TEof :: ts => ([], Some UnexpectedEof, ts)
      end) ts
  end.
Lemma re_vtok_bytes : forall bs n ts f, length bs <= n ->
  re_vtok n (map TByte bs ++ ts) f =
  let '(g, s, ts') := re_vtok (n - length bs) ts f in (bs ++ g, s, ts').
Proof.
  induction bs as [|b bs IH]; intros n ts f H.
  - cbn [map app length]. rewrite Nat.sub_0_r. destruct (re_vtok n ts f) as [[g s] t']. reflexivity.
  - cbn in H. destruct n; [lia|]. cbn [map app re_vtok length Nat.sub].
    rewrite IH by lia. destruct (re_vtok (n - length bs) ts f) as [[g s] t']. reflexivity.
Qed.
Lemma read_exact_vtok : forall es n f got st es',
  read_exact_evs n es f = (got, st, es') -> re_vtok n (vtranscript es) f = (got, st, vtranscript es').
Proof.
  induction es as [|e es IH]; intros n f got st es' H.
  - destruct n; cbn in *; injection H; intros; subst; reflexivity.
  - destruct n as [|n].
    { cbn in H. injection H; intros; subst. reflexivity. }
    destruct e as [bs|k].
    + destruct bs as [|b bs].
      { cbn in H. injection H; intros; subst. reflexivity. }
      cbn [read_exact_evs] in H. set (l := b :: bs) in *.
      destruct (length l <? S n) eqn:E.
      * apply Nat.ltb_lt in E. destruct (read_exact_evs (S n - length l) es f) as [[g s] e'] eqn:R.
        apply IH in R. injection H; intros; subst.
        rewrite vdata by discriminate. rewrite re_vtok_bytes by lia. rewrite R. reflexivity.
      * apply Nat.ltb_ge in E. injection H; intros; subst. clear H.
        rewrite vdata by discriminate.
        rewrite <- (firstn_skipn (S n) l) at 1. rewrite map_app, <- app_assoc.
        rewrite re_vtok_bytes by (rewrite firstn_length; lia).
        rewrite firstn_length. replace (S n - min (S n) (length l)) with 0 by lia.
        cbn [re_vtok]. rewrite app_nil_r.
        cbn [skipn firstn l]. destruct (skipn n bs); reflexivity.
    + destruct k as [| |c]; cbn [read_exact_evs] in H.
      * injection H; intros; subst. reflexivity.
      * apply IH in H. change (vtranscript (EvFail Interrupted :: es)) with (TErr Interrupted :: vtranscript es).
        exact H.
      * injection H; intros; subst. reflexivity.
Qed.
Lemma re_vtok_len : forall n ts f g s ts', re_vtok n ts f = (g, s, ts') ->
  match s with None => length g = n | Some _ => length g < n end /\ length g + length ts' <= length ts.
Proof.
  induction n; intros ts f g s ts' H.
  - cbn in H. injection H as <- <- <-. split; [reflexivity|cbn; lia].
  - cbn [re_vtok] in H. induction ts as [|t ts IHt].
    + injection H as <- <- <-. cbn. split; lia.
    + destruct t as [b|k|].
      * destruct (re_vtok n ts f) as [[g1 s1] t1] eqn:R. injection H as <- <- <-.
        apply IHn in R. destruct R as [L R]. cbn [length]. split; [|lia]. destruct s1; lia.
      * destruct k.
        -- injection H as <- <- <-. cbn; split; lia.
        -- destruct (IHt H) as [A B]. split; [exact A|]. cbn [length]. lia.
        -- injection H as <- <- <-. cbn; split; lia.
      * injection H as <- <- <-. cbn; split; lia.
Qed.

(* ---- Bytes ---- *)
Definition view (b : bytes) : list token := map TByte (rev (b_cache b)) ++ vtranscript (evs (b_reader b)).
Definition cl (b : bytes) : nat := length (b_cache b).
(* bs' is bs after consuming k bytes *)
Definition adv (b b' : bytes) (k : nat) : Prop :=
  b_num_read b' + cl b = b_num_read b + cl b' + k /\ cl b' = cl b - k /\ fin (b_reader b') = fin (b_reader b).
Lemma adv_0 : forall b, adv b b 0.
Proof. intro. unfold adv. repeat split; lia. Qed.
Lemma adv_trans : forall a b c i j, adv a b i -> adv b c j -> adv a c (i + j).
Proof. unfold adv. intros a b c i j (A1 & A2 & A3) (B1 & B2 & B3). repeat split; try lia. congruence. Qed.

Lemma vec_pop_snoc : forall A (v : list A) x, vec_pop (v ++ [x]) = Some (x, v).
Proof. intros. unfold vec_pop. rewrite rev_app_distr. cbn. rewrite rev_involutive. reflexivity. Qed.

Lemma cache_cases : forall A (v : list A), v = [] \/ exists v' x, v = v' ++ [x].
Proof. intros. destruct (rev v) as [|x r] eqn:E.
  - left. apply (f_equal (@rev A)) in E. rewrite rev_involutive in E. exact E.
  - right. exists (rev r), x. apply (f_equal (@rev A)) in E. rewrite rev_involutive in E. exact E.
Qed.

Lemma next_byte : forall b x ts, view b = TByte x :: ts ->
  exists b', bytes_next b = (inl x, b') /\ view b' = ts /\ adv b b' 1.
Proof.
  intros [r n c] x ts H. unfold view in H. cbn [b_cache b_reader] in H. unfold bytes_next. cbn [b_cache b_reader b_num_read].
  destruct (cache_cases _ c) as [->|(c' & y & ->)].
  - cbn [vec_pop rev app map] in *. destruct (read1_spec r) as (r' & F & S). rewrite H in S. destruct S as [R V].
    unfold vec_pop. cbn [rev]. rewrite R. eexists. split; [reflexivity|]. split; [exact V|].
    unfold adv, cl. cbn [b_num_read b_cache b_reader length]. repeat split; [lia|assumption].
  - rewrite rev_app_distr in H. cbn [rev app map] in H. injection H as -> H. rewrite vec_pop_snoc.
    eexists. split; [reflexivity|]. split; [exact H|].
    unfold adv, cl. cbn [b_num_read b_cache b_reader]. rewrite app_length. cbn [length]. repeat split; lia.
Qed.

Definition nonbyte_head (ts : list token) : Prop := match ts with TByte _ :: _ => False | _ => True end.
(* what reading a byte reports when there is none *)
Definition head_kind (ts : list token) (f : final) : iokind :=
  match ts with TErr k :: _ => k | TEof :: _ => UnexpectedEof | _ => final_kind f end.

Lemma next_err : forall b, nonbyte_head (view b) ->
  exists b', bytes_next b = (inr (head_kind (view b) (fin (b_reader b))), b') /\ b_cache b = [] /\ b_cache b' = []
  /\ b_num_read b' = b_num_read b /\ view b' = tl (view b) /\ fin (b_reader b') = fin (b_reader b).
Proof.
  intros [r n c] H. unfold view in *. cbn [b_cache b_reader] in *. unfold bytes_next. cbn [b_cache b_reader b_num_read].
  destruct (cache_cases _ c) as [->|(c' & y & ->)].
  - cbn [rev app map] in *. destruct (read1_spec r) as (r' & F & S). unfold vec_pop. cbn [rev].
    destruct (vtranscript (evs r)) as [|[x|k|] ts]; cbn [nonbyte_head] in H; try contradiction; destruct S as [R V].
    + rewrite R. cbn [head_kind final_kind tl]. destruct (fin r); eexists; (split; [reflexivity|]); repeat split; assumption.
    + rewrite R. cbn [head_kind tl]. eexists; (split; [reflexivity|]); repeat split; assumption.
    + rewrite R. cbn [head_kind tl]. eexists; (split; [reflexivity|]); repeat split; assumption.
  - rewrite rev_app_distr in H. cbn in H. contradiction.
Qed.

Lemma view_push : forall w b, view (bytes_push (rev w) b) = map TByte w ++ view b.
Proof.
  intros. unfold view, bytes_push. cbn [b_cache b_reader]. rewrite rev_app_distr, rev_involutive, map_app, app_assoc. reflexivity.
Qed.
Lemma cl_push : forall w b, cl (bytes_push w b) = cl b + length w.
Proof. intros. unfold cl, bytes_push. cbn. apply app_length. Qed.

(* ---- comparing with a pattern ---- *)
Inductive cmp_res := CMatch | CFail (j : nat) | CShort.
Fixpoint cmp (pat mask rem : list N) : cmp_res :=
  match pat, mask, rem with
  | p :: pat, m :: mask, x :: rem =>
      if (N.land x m =? p)%N then
        match cmp pat mask rem with CFail j => CFail (S j) | c => c end
      else CFail 1
  | [], _, _ => CMatch
  | _, _, _ => CShort
  end.
Lemma cmp_fail_bound : forall pat mask rem j, cmp pat mask rem = CFail j -> 1 <= j <= length pat /\ j <= length rem.
Proof.
  induction pat as [|p pat IH]; intros [|m mask] [|x rem] j H; cbn in H; try discriminate.
  destruct (N.land x m =? p)%N.
  - destruct (cmp pat mask rem) eqn:E; try discriminate. apply IH in E. injection H as <-. cbn. lia.
  - injection H as <-. cbn. lia.
Qed.
Lemma cmp_match_len : forall pat mask rem, length mask = length pat -> cmp pat mask rem = CMatch -> length pat <= length rem.
Proof.
  induction pat as [|p pat IH]; intros [|m mask] [|x rem] L H; cbn in *; try discriminate; try lia.
  destruct (N.land x m =? p)%N; [|discriminate]. destruct (cmp pat mask rem) eqn:E; try discriminate.
  apply IH in E; lia.
Qed.
Lemma cmp_short_len : forall pat mask rem, length mask = length pat -> cmp pat mask rem = CShort -> length rem < length pat.
Proof.
  induction pat as [|p pat IH]; intros [|m mask] [|x rem] L H; cbn in *; try discriminate; try lia.
  destruct (N.land x m =? p)%N; [|discriminate]. destruct (cmp pat mask rem) eqn:E; try discriminate.
  apply IH in E; lia.
Qed.

Lemma try_spec : forall pat mask working b bs rem ts,
  length mask = length pat -> view bs = map TByte rem ++ ts -> nonbyte_head ts ->
  match cmp pat mask rem with
  | CMatch => exists bs', try_pattern pat mask working b bs = Val (TMatch (last (firstn (length pat) rem) b) bs')
      /\ view bs' = map TByte (skipn (length pat) rem) ++ ts /\ adv bs bs' (length pat)
  | CFail j => exists bs', try_pattern pat mask working b bs = Val (TFail (working ++ firstn j rem) bs')
      /\ view bs' = map TByte (skipn j rem) ++ ts /\ adv bs bs' j
  | CShort => exists bs', try_pattern pat mask working b bs = Val (TReadErr (head_kind ts (fin (b_reader bs))) bs')
      /\ view bs' = tl ts /\ b_cache bs' = [] /\ b_num_read bs <= b_num_read bs' /\ fin (b_reader bs') = fin (b_reader bs)
  end.
Proof.
  induction pat as [|p pat IH]; intros mask working b bs rem ts L V NB.
  - cbn. exists bs. split; [reflexivity|]. split; [exact V|apply adv_0].
  - destruct mask as [|m mask]; [discriminate|]. cbn in L. destruct rem as [|x rem].
    + cbn [cmp]. cbn [map app] in V. destruct (next_err bs) as (bs' & E & C & C' & NR & V' & F); [rewrite V; exact NB|].
      exists bs'. cbn [try_pattern]. rewrite E, V. repeat split; try assumption; [congruence|lia].
    + cbn [cmp]. cbn [map app] in V. destruct (next_byte _ _ _ V) as (b1 & E & V1 & A1).
      cbn [try_pattern]. rewrite E. destruct (N.land x m =? p)%N eqn:M; cbn [negb].
      * specialize (IH mask (working ++ [x]) x b1 rem ts ltac:(lia) V1 NB).
        assert (F1 : fin (b_reader b1) = fin (b_reader bs)) by apply A1.
        destruct (cmp pat mask rem) as [|j|] eqn:C; cbn beta iota in IH |- *.
        -- destruct IH as (b2 & E2 & V2 & A2). exists b2. rewrite E2. split.
           { f_equal. f_equal. cbn [length firstn]. destruct (firstn (length pat) rem) eqn:Q; [reflexivity|].
             cbn [last]. clear. revert n. induction l; intro n; cbn; [reflexivity|]. apply IHl. }
           split; [exact V2|]. apply (adv_trans _ _ _ 1 (length pat) A1 A2).
        -- destruct IH as (b2 & E2 & V2 & A2). exists b2. rewrite E2. split.
           { f_equal. f_equal. cbn [firstn]. rewrite <- app_assoc. reflexivity. }
           split; [exact V2|]. apply (adv_trans _ _ _ 1 j A1 A2).
        -- destruct IH as (b2 & E2 & V2 & C2 & N2 & F2). exists b2. rewrite E2, F1. repeat split; try assumption; [|congruence].
           destruct A1 as (A1 & A1' & _). lia.
      * exists b1. split; [reflexivity|]. split; [exact V1|exact A1].
Qed.

(* every token list is bytes followed by something that is not a byte *)
Fixpoint lead (ts : list token) : list N := match ts with TByte b :: ts => b :: lead ts | _ => [] end.
Fixpoint after_lead (ts : list token) : list token := match ts with TByte b :: ts => after_lead ts | _ => ts end.
Lemma lead_split : forall ts, ts = map TByte (lead ts) ++ after_lead ts /\ nonbyte_head (after_lead ts).
Proof.
  induction ts as [|[b|k|] ts [IH1 IH2]]; cbn; auto. split; [congruence|assumption].
Qed.
