From Verif Require Import Base L_Base S_Bits M_Reader M_Packet S_Packet.
Open Scope nat_scope.

(* read_exact on a token list *)
Fixpoint re_tok (n : nat) (ts : list token) (f : final) : list N * option iokind * list token :=
  match n with
  | O => ([], None, ts)
  | S n' =>
      match ts with
      | [] => ([], Some (match f with AtEof => UnexpectedEof | Failing c => OtherIo c end), [])
      | TByte b :: ts => let '(g, s, ts') := re_tok n' ts f in (b :: g, s, ts')
      | TErr k :: ts => ([], Some k, ts)
      | TEof :: ts => ([], Some UnexpectedEof, ts)
      end
  end.

Lemma re_tok_bytes : forall bs n ts f, length bs <= n ->
  re_tok n (map TByte bs ++ ts) f =
  let '(g, s, ts') := re_tok (n - length bs) ts f in (bs ++ g, s, ts').
Proof.
  induction bs as [|b bs IH]; intros n ts f H.
  - cbn [map app length]. rewrite Nat.sub_0_r. destruct (re_tok n ts f) as [[g s] t']. reflexivity.
  - cbn in H. destruct n; [lia|]. cbn [map app re_tok length Nat.sub].
    rewrite IH by lia. destruct (re_tok (n - length bs) ts f) as [[g s] t']. reflexivity.
Qed.

Lemma tokens_of_data : forall bs es, bs <> [] -> transcript (EvData bs :: es) = map TByte bs ++ transcript es.
Proof. intros. destruct bs; [congruence|reflexivity]. Qed.

Lemma read_exact_tok : forall es n f got st es',
  read_exact_evs n es f = (got, st, es') -> re_tok n (transcript es) f = (got, st, transcript es').
Proof.
  induction es as [|e es IH]; intros n f got st es' H.
  - destruct n; cbn in *; injection H; intros; subst; reflexivity.
  - destruct n as [|n].
    { cbn in H. injection H; intros; subst. reflexivity. }
    destruct e as [bs|k].
    + destruct bs as [|b bs].
      { cbn in H. injection H; intros; subst. reflexivity. }
      cbn [read_exact_evs] in H. set (l := b :: bs) in *.
      destruct (length l <? S n) eqn:E.
      * apply Nat.ltb_lt in E. destruct (read_exact_evs (S n - length l) es f) as [[g s] e'] eqn:R.
        apply IH in R. injection H; intros; subst.
        rewrite tokens_of_data by discriminate. rewrite re_tok_bytes by lia. rewrite R. reflexivity.
      * apply Nat.ltb_ge in E. injection H; intros; subst. clear H.
        rewrite tokens_of_data by discriminate.
        rewrite <- (firstn_skipn (S n) l) at 1. rewrite map_app, <- app_assoc.
        rewrite re_tok_bytes by (rewrite firstn_length; lia).
        rewrite firstn_length. replace (S n - min (S n) (length l)) with 0 by lia.
        cbn [re_tok]. rewrite app_nil_r.
        cbn [skipn firstn l]. destruct (skipn n bs); reflexivity.
    + destruct k as [| |c]; cbn [read_exact_evs] in H.
      * injection H; intros; subst. reflexivity.
      * apply IH in H. cbn [transcript flat_map tokens_of_event app]. exact H.
      * injection H; intros; subst. reflexivity.
Qed.

Lemma re_tok_some : forall n ts f g s ts', re_tok n ts f = (g, s, ts') ->
  match s with
  | None => length g = n /\ ts = map TByte g ++ ts'
  | Some k => length g < n /\
      ((ts = map TByte g ++ TErr k :: ts')
       \/ (ts = map TByte g ++ TEof :: ts' /\ k = UnexpectedEof)
       \/ (ts = map TByte g /\ ts' = [] /\ k = match f with AtEof => UnexpectedEof | Failing c => OtherIo c end))
  end.
Proof.
  induction n; intros ts f g s ts' H.
  - cbn in H. injection H; intros; subst. split; reflexivity.
  - cbn in H. destruct ts as [|t ts].
    + injection H; intros; subst. cbn. split; [lia|]. right; right. auto.
    + destruct t as [b|k|].
      * destruct (re_tok n ts f) as [[g1 s1] t1] eqn:R. injection H; intros; subst.
        apply IHn in R. destruct s.
        -- destruct R as [L R]. cbn. split; [lia|]. intuition (subst; auto).
        -- destruct R as [L R]. cbn. split; [lia|]. rewrite R. reflexivity.
      * injection H; intros; subst. cbn. split; [lia|]. auto.
      * injection H; intros; subst. cbn. split; [lia|]. auto.
Qed.

Lemma re_tok_exact : forall g ts f, re_tok (length g) (map TByte g ++ ts) f = (g, None, ts).
Proof. intros. rewrite re_tok_bytes by lia. rewrite Nat.sub_diag. cbn. rewrite app_nil_r. reflexivity. Qed.

Lemma transcript_data : forall bs, bs <> [] -> transcript (evs (reader_of bs)) = map TByte bs.
Proof. intros. cbn. rewrite app_nil_r. destruct bs; [congruence|reflexivity]. Qed.

(* read_exact is the loop of std's default_read_exact over read *)
Fixpoint read_exact_loop_ (fuel : nat) (n : nat) (acc : list N) (r : reader)
  : option (list N * option iokind * reader) :=
  match fuel with
  | O => None
  | S fuel =>
      if n =? 0 then Some (acc, None, r) else
      match read n r with
      | (inl [], r') => Some (acc, Some UnexpectedEof, r')
      | (inl bs, r') => read_exact_loop_ fuel (n - length bs) (acc ++ bs) r'
      | (inr Interrupted, r') => read_exact_loop_ fuel n acc r'
      | (inr k, r') => Some (acc, Some k, r')
      end
  end.

Lemma read_exact_loop : forall es f n acc fuel, length es + 2 <= fuel ->
  read_exact_loop_ fuel n acc (mkReader es f) =
  Some (let '(g, s, r) := read_exact n (mkReader es f) in (acc ++ g, s, r)).
Proof.
  unfold read_exact. cbn [evs fin].
  induction es as [|e es IH]; intros f n acc fuel Hf; destruct fuel as [|fuel]; cbn in Hf; try lia;
    destruct n as [|n].
  - cbn. rewrite app_nil_r. reflexivity.
  - cbn. destruct f; rewrite app_nil_r; reflexivity.
  - cbn. rewrite app_nil_r. reflexivity.
  - cbn [read_exact_loop_ Nat.eqb]. unfold read. cbn [Nat.eqb evs fin].
    destruct e as [bs|k].
    + destruct bs as [|b bs]; cbn [firstn].
      * cbn. rewrite app_nil_r. reflexivity.
      * cbn [read_exact_evs]. set (l := b :: bs).
        destruct (length l <? S n) eqn:E.
        -- apply Nat.ltb_lt in E.
           assert (S n <> 0) by lia.
           replace (firstn n bs) with bs by (symmetry; apply firstn_all2; cbn in E; lia).
           fold l. replace (skipn (S n) l) with (@nil N) by (symmetry; apply skipn_all2; lia).
           rewrite IH by lia.
           destruct (read_exact_evs (S n - length l) es f) as [[g s] e'].
           rewrite app_assoc. reflexivity.
        -- apply Nat.ltb_ge in E. cbn in E.
           replace (length (b :: firstn n bs)) with (S n) by (cbn; rewrite firstn_length; lia).
           rewrite Nat.sub_diag. destruct fuel; [lia|]. cbn [read_exact_loop_ Nat.eqb].
           reflexivity.
    + destruct k as [| |c].
      * cbn. rewrite app_nil_r. reflexivity.
      * cbn [read_exact_evs]. rewrite IH by lia. reflexivity.
      * cbn. rewrite app_nil_r. reflexivity.
Qed.
