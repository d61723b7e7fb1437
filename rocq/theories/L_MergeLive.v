(* Lemmas about merging inputs that fail or change while they are read *)
From Coq Require Import Permutation Sorted.
From Verif Require Import Base S_Packet M_Reader M_Packet M_Group S_Group M_Timecode L_Base L_Reader L_Packet L_Group M_Merge S_Merge L_Merge
  M_Cli M_Main M_Write S_Write L_Write M_Live S_Live M_MergeLive S_MergeLive P_LiveCmd.
Open Scope nat_scope.

(* ---- reading again ---- *)
Lemma read_tok : forall n r g st r', read_exact n r = (g, st, r') -> re_tok n (transcript (evs r)) (fin r) = (g, st, transcript (evs r')).
Proof.
  intros n r g st r' E. unfold read_exact in E. destruct (read_exact_evs n (evs r) (fin r)) as [[g0 st0] es0] eqn:R.
  injection E as <- <- <-. exact (read_exact_tok _ _ _ _ _ _ R).
Qed.
Lemma map_byte_prefix : forall g d l1 l2, map TByte g ++ l1 = map TByte d ++ l2 -> length g <= length d -> g = firstn (length g) d.
Proof.
  induction g as [|x g IH]; intros d l1 l2 E L; [reflexivity|]. destruct d as [|y d]; cbn in L; [lia|]. cbn in E. injection E as -> E. cbn [length firstn].
  f_equal. eapply IH; [exact E|lia].
Qed.
Lemma map_byte_bound : forall g d l1 l2, map TByte g ++ l1 = map TByte d ++ l2 -> (forall b l, l2 <> TByte b :: l) -> length g <= length d.
Proof.
  induction g as [|x g IH]; intros d l1 l2 E L; [cbn; lia|]. destruct d as [|y d]; cbn in E.
  - exfalso. eapply L. symmetry. exact E.
  - injection E as -> E. cbn. apply le_n_S. eapply IH; eassumption.
Qed.
Lemma reads_as_again : forall r bs n, reads_as r bs ->
  exists g r', read_exact n r = (g, if n <=? length bs then None else Some UnexpectedEof, r') /\ (n <= length bs -> g = firstn n bs).
Proof.
  intros r bs n ((j & T) & F). destruct (read_exact n r) as [[g st] r'] eqn:E. exists g, r'. apply read_tok in E. rewrite T, F in E. apply re_tok_some in E.
  assert (NB : forall b l, repeat TEof j <> TByte b :: l) by (intros b l; destruct j; discriminate).
  destruct st as [k|].
  - destruct E as (L & [H|[(H & ->)|(H & _ & ->)]]).
    + exfalso. clear -H. revert bs H. induction g as [|x g IH]; intros [|b bs] H; cbn in H.
      * destruct j; discriminate.
      * discriminate.
      * destruct j; discriminate.
      * injection H as -> H. eauto.
    + assert (EL : length bs = length g).
      { assert (H' := eq_sym H). assert (length g <= length bs) by (eapply map_byte_bound; [exact H'|exact NB]).
        assert (length bs <= length g) by (eapply map_byte_bound; [exact H|intros b l; discriminate]). lia. }
      destruct (Nat.leb_spec n (length bs)); [lia|]. split; [reflexivity|lia].
    + assert (EL : length bs <= length g). { rewrite <- (app_nil_r (map TByte g)) in H. eapply map_byte_bound; [exact H|intros b l; discriminate]. }
      destruct (Nat.leb_spec n (length bs)); [lia|]. split; [reflexivity|lia].
  - destruct E as (L & H). symmetry in H. assert (B : length g <= length bs) by (eapply map_byte_bound; eassumption).
    destruct (Nat.leb_spec n (length bs)); [|lia]. split; [reflexivity|]. intros _. rewrite <- L. eapply map_byte_prefix; eassumption.
Qed.
Lemma truthful_again : forall r bs n g r', truthful r bs -> read_exact n r = (g, None, r') -> n <= length bs /\ g = firstn n bs.
Proof.
  intros r bs n g r' [R|(d & rest & -> & H)] E.
  - destruct (reads_as_again r bs n R) as (g' & r2 & E' & G). rewrite E in E'. destruct (Nat.leb_spec n (length bs)); [|discriminate].
    injection E' as -> _. auto.
  - apply read_tok, re_tok_some in E. destruct E as (L & T). rewrite app_length.
    assert (X : exists l2, map TByte g ++ transcript (evs r') = map TByte d ++ l2 /\ forall b l, l2 <> TByte b :: l).
    { destruct H as [(H & _)|(k & ts & H)].
      - exists []. rewrite app_nil_r, <- T. split; [exact H|discriminate].
      - exists (TErr k :: ts). rewrite <- T. split; [exact H|discriminate]. }
    destruct X as (l2 & X & NB). assert (B := map_byte_bound _ _ _ _ X NB). split; [lia|].
    rewrite firstn_app, <- L. replace (length g - length d) with 0 by lia. cbn [firstn]. rewrite app_nil_r. eapply map_byte_prefix; eassumption.
Qed.

(* ---- opening ---- *)
Lemma open_inputs_ok : forall ins paths m,
  (forall p, In p paths -> ins p <> None) -> NoDup (map fst m) -> (forall p i, In (p, i) m -> ins p = Some i) ->
  exists r, open_inputs ins paths m = Ok r /\ NoDup (map fst r) /\ (forall p i, In (p, i) r -> ins p = Some i) /\
    (forall p, In p (map fst r) <-> In p paths \/ In p (map fst m)).
Proof.
  intros ins paths. induction paths as [|p paths IH]; intros m H N HM.
  - exists m. cbn. split; [reflexivity|]. split; [exact N|]. split; [exact HM|]. tauto.
  - cbn [open_inputs]. destruct (ins p) as [i|] eqn:E; [|exfalso; apply (H p); [left; reflexivity|exact E]].
    destruct (IH (aset p i m)) as (r & R & NR & HR & KR).
    + intros q Q. apply H. right. exact Q.
    + apply nodup_aset. exact N.
    + intros q b I. apply in_aset in I. destruct I as [I|I]; [congruence|auto].
    + exists r. split; [exact R|]. split; [exact NR|]. split; [exact HR|]. intro q. rewrite KR, keys_aset. cbn [In]. intuition congruence.
Qed.
Lemma open_inputs_err : forall ins paths m, (exists p, In p paths /\ ins p = None) -> exists e, open_inputs ins paths m = Err (Io e).
Proof.
  intros ins paths. induction paths as [|q paths IH]; intros m (p & I & E); [destruct I|].
  cbn [open_inputs]. destruct (ins q) as [i|] eqn:EQ; [|eauto]. apply IH. destruct I as [->|I]; [congruence|eauto].
Qed.

(* ---- the copies ---- *)
(* what there is to copy: the blocks, and the error that ends them *)
Fixpoint blocks_of (again : N -> nat -> nat -> iokind + reader) (k : nat) (l : list ptr) : list (list N) * option iokind :=
  match l with
  | [] => ([], None)
  | p :: rest =>
      match again (pt_path p) k (pt_offset p) with
      | inl e => ([], Some e)
      | inr r =>
          match read_exact (pt_size p) r with
          | (_, Some e, _) => ([], Some e)
          | (buf, None, _) => let '(bl, e) := blocks_of again (S k) rest in (buf :: bl, e)
          end
      end
  end.
Definition end_of (failure : option iokind) : result unit := match failure with None => Ok tt | Some e => Err (Io e) end.
Lemma copy_chunks : forall ins inputs l k w, (forall p, In p l -> exists i, aget (pt_path p) inputs = Some i /\ ins (pt_path p) = Some i) ->
  copy_groups inputs k l w =
    let '(st, w') := write_chunks (fst (blocks_of (again_of ins) k l)) w in
    Val (match st with Some e => Err (Io e) | None => end_of (snd (blocks_of (again_of ins) k l)) end, w').
Proof.
  intros ins inputs. induction l as [|p l IH]; intros k w H; [reflexivity|]. cbn [copy_groups blocks_of].
  destruct (H p (or_introl eq_refl)) as (i & A & I). rewrite A. unfold again_of at 1 3. rewrite I.
  destruct (in_again i k (pt_offset p)) as [e|r]; [reflexivity|]. destruct (read_exact (pt_size p) r) as [[buf [e|]] r']; [reflexivity|].
  specialize (IH (S k)). destruct (blocks_of (again_of ins) (S k) l) as [bl e] eqn:EB. cbn [fst snd write_chunks].
  destruct (write_all buf w) as [[e'|] w1]; [reflexivity|]. apply IH. intros q Q. apply H. right. exact Q.
Qed.
(* pointers and the groups they stand for *)
Definition points (m : merger) (q : ptr) (x : N * pgroup) : Prop := group_ptr m (fst x) (snd x) = Some q.
Lemma points_path : forall m q x, points m q x -> pt_path q = fst x.
Proof. intros m q x H. apply group_ptr_some in H. destruct H as (f & rest & t & _ & _ & _ & _ & _ & ->). reflexivity. Qed.
Lemma points_placed : forall m q x, points m q x -> placed (snd x) (pt_offset q) (pt_size q).
Proof.
  intros m q x H. apply group_ptr_some in H. destruct H as (f & rest & t & E & _ & _ & _ & _ & ->). exists f, rest. cbn [pt_offset pt_size].
  split; [exact E|]. split; [reflexivity|]. f_equal. apply map_ext. intro p. unfold total_len, HDR_LEN. lia.
Qed.
Lemma placed_unique : forall g o n o' n', placed g o n -> placed g o' n' -> o = o' /\ n = n'.
Proof. intros g o n o' n' (f & rest & E & -> & ->) (f' & rest' & E' & -> & ->). rewrite E in E'. injection E' as <- <-. auto. Qed.
Lemma blocks_copied : forall m again l sel, Forall2 (points m) l sel -> forall k,
  (forall j d, nth_error (fst (blocks_of again k l)) j = Some d -> exists x, nth_error sel j = Some x /\ found_again again (k + j) x d) /\
  match snd (blocks_of again k l) with
  | None => length (fst (blocks_of again k l)) = length sel
  | Some e => exists x, nth_error sel (length (fst (blocks_of again k l))) = Some x /\ not_found again (k + length (fst (blocks_of again k l))) x e
  end.
Proof.
  intros m again l sel F. induction F as [|q x l sel P F IH]; intro k; cbn [blocks_of].
  - split; [intros [|j] d E; discriminate|reflexivity].
  - assert (PL := points_placed _ _ _ P). rewrite (points_path _ _ _ P).
    destruct (again (fst x) k (pt_offset q)) as [e|r] eqn:A.
    { cbn [fst snd length nth_error]. split; [intros [|j] d E; discriminate|]. exists x. split; [reflexivity|]. rewrite Nat.add_0_r.
      exists (pt_offset q), (pt_size q). auto. }
    destruct (read_exact (pt_size q) r) as [[buf [e|]] r'] eqn:R.
    { cbn [fst snd length nth_error]. split; [intros [|j] d E; discriminate|]. exists x. split; [reflexivity|]. rewrite Nat.add_0_r.
      exists (pt_offset q), (pt_size q). split; [exact PL|]. right. exists r, buf, r'. auto. }
    specialize (IH (S k)). destruct (blocks_of again (S k) l) as [bl e]. cbn [fst snd] in *. destruct IH as (A1 & A2). split.
    + intros [|j] d E; cbn [nth_error] in *.
      * injection E as <-. exists x. split; [reflexivity|]. rewrite Nat.add_0_r. exists (pt_offset q), (pt_size q), r, r'. auto.
      * destruct (A1 j d E) as (y & Y & G). exists y. split; [exact Y|]. replace (k + S j) with (S k + j) by lia. exact G.
    + cbn [length]. destruct e as [e|]; [|lia]. destruct A2 as (y & Y & G). exists y. split; [exact Y|]. replace (k + S (length bl)) with (S k + length bl) by lia. exact G.
Qed.
Lemma blocks_are_copied : forall m again l sel, Forall2 (points m) l sel ->
  copied again sel (concat (fst (blocks_of again 0 l))) (snd (blocks_of again 0 l)).
Proof.
  intros m again l sel F. destruct (blocks_copied m again l sel F 0) as (A & B). exists (fst (blocks_of again 0 l)). auto.
Qed.
Lemma nth_error_same : forall A (a b : list A), (forall k, nth_error a k = nth_error b k) -> a = b.
Proof.
  induction a as [|x a IH]; intros [|y b] H; [reflexivity|specialize (H 0); discriminate|specialize (H 0); discriminate|].
  assert (H0 := H 0). cbn in H0. injection H0 as <-. f_equal. apply IH. intro k. exact (H (S k)).
Qed.
Lemma copied_unique : forall again sel full e full' e', copied again sel full e -> copied again sel full' e' -> full = full' /\ e = e'.
Proof.
  assert (F1 : forall again k x d d', found_again again k x d -> found_again again k x d' -> d = d').
  { intros again k x d d' (o & n & r & r' & P & A & R) (o2 & n2 & r2 & r2' & P2 & A2 & R2). destruct (placed_unique _ _ _ _ _ P P2) as [<- <-].
    rewrite A in A2. injection A2 as <-. rewrite R in R2. injection R2 as <- _. reflexivity. }
  assert (F2 : forall again k x d e, found_again again k x d -> not_found again k x e -> False).
  { intros again k x d e (o & n & r & r' & P & A & R) (o2 & n2 & P2 & Q). destruct (placed_unique _ _ _ _ _ P P2) as [<- <-].
    destruct Q as [Q|(r2 & d2 & r2' & Q & R2)]; rewrite A in Q; [discriminate|]. injection Q as <-. rewrite R in R2. discriminate. }
  assert (F3 : forall again k x e e', not_found again k x e -> not_found again k x e' -> e = e').
  { intros again k x e e' (o & n & P & Q) (o2 & n2 & P2 & Q2). destruct (placed_unique _ _ _ _ _ P P2) as [<- <-].
    destruct Q as [Q|(r & d & r' & Q & R)], Q2 as [Q2|(r2 & d2 & r2' & Q2 & R2)]; rewrite Q in Q2; try discriminate; injection Q2 as <-; [reflexivity|].
    rewrite R in R2. injection R2 as _ <- _. reflexivity. }
  intros again sel full e full' e' (b & -> & A & B) (b' & -> & A' & B').
  assert (L : forall (b b' : list (list N)) e', (forall k d, nth_error b k = Some d -> exists x, nth_error sel k = Some x /\ found_again again k x d) ->
     match e' with None => length b' = length sel | Some e => exists x, nth_error sel (length b') = Some x /\ not_found again (length b') x e end ->
     length b <= length b').
  { clear -F2. intros b b' e' A B'. destruct (Nat.le_gt_cases (length b) (length b')) as [L|L]; [exact L|exfalso].
    destruct (nth_error b (length b')) as [d|] eqn:N; [|apply nth_error_None in N; lia]. destruct (A _ _ N) as (x & X & G).
    destruct e' as [e'|].
    - destruct B' as (x' & X' & Q). rewrite X in X'. injection X' as <-. eapply F2; eassumption.
    - assert (length b' < length sel) by (apply nth_error_Some; congruence). lia. }
  assert (EL : length b = length b') by (apply Nat.le_antisymm; [exact (L b b' e' A B')|exact (L b' b e A' B)]).
  assert (EB : b = b').
  { apply nth_error_same. intro k. destruct (nth_error b k) as [d|] eqn:N.
    - destruct (nth_error b' k) as [d'|] eqn:N'; [|apply nth_error_None in N'; assert (k < length b) by (apply nth_error_Some; congruence); lia].
      destruct (A _ _ N) as (x & X & G), (A' _ _ N') as (x' & X' & G'). rewrite X in X'. injection X' as <-. f_equal. eapply F1; eassumption.
    - symmetry. apply nth_error_None. apply nth_error_None in N. lia. }
  subst b'. split; [reflexivity|]. destruct e as [e|], e' as [e'|]; [|exfalso|exfalso|reflexivity].
  - destruct B as (x & X & Q), B' as (x' & X' & Q'). rewrite X in X'. injection X' as <-. f_equal. eapply F3; eassumption.
  - destruct B as (x & X & _). assert (length b < length sel) by (apply nth_error_Some; congruence). lia.
  - destruct B' as (x & X & _). assert (length b < length sel) by (apply nth_error_Some; congruence). lia.
Qed.

(* ---- the index ---- *)
Lemma union_all : forall m (inputs : list (N * reader)) found index l0, picks l0 index ->
  picks (l0 ++ flat_map (fun x => filter_map_opt (group_ptr m (fst x)) (found (fst x))) inputs)
    (fold_left set_union (map (fun xg => set_collect (filter_map_opt (group_ptr m (fst (fst xg))) (snd xg))) (combine inputs (map (fun x => found (fst x)) inputs))) index).
Proof.
  intros m inputs found. induction inputs as [|[p r] inputs IH]; intros index l0 P; cbn [map combine fold_left flat_map fst snd].
  - rewrite app_nil_r. exact P.
  - rewrite app_assoc. apply IH. apply union_picks; [exact P|apply collect_picks].
Qed.

Lemma live_main : forall h ins m found w, order_ok h -> all_found ins m found ->
  exists l sel, Forall2 (points m) l sel /\ StronglySorted kle l /\ NoDup (map pkey l) /\
    (forall q, In q l -> In (pt_path q) (mg_paths m)) /\
    Forall (fun x => In (fst x) (mg_paths m) /\ In (snd x) (found (fst x))) sel /\
    (forall q p g, In p (mg_paths m) -> In g (found p) -> group_ptr m p g = Some q -> In (pkey q) (map pkey l)) /\
    eventually (merge_live h ins m w)
      (Some (let '(st, w') := write_chunks (fst (blocks_of (again_of ins) 0 l)) w in
             Val (match st with Some e => Err (Io e) | None => end_of (snd (blocks_of (again_of ins) 0 l)) end, w'))).
Proof.
  intros h ins m found w [HR HI] AF. unfold merge_live.
  destruct (open_inputs_ok ins (mg_paths m) []) as (r & ER & ND & HM & HK).
  { intros p I E. destruct (AF p I) as (i & E' & _). congruence. }
  { constructor. }
  { intros p i []. }
  rewrite ER. set (r' := lo_inputs h r). assert (PR : Permutation r r') by apply HR.
  assert (KP : forall p, In p (map fst r') <-> In p (mg_paths m)).
  { intro p. rewrite <- (Permutation_map fst PR), HK. cbn [map In]. tauto. }
  set (rd := map (fun x => (fst x, in_first (snd x))) r').
  assert (FR : map fst rd = map fst r') by (unfold rd; rewrite map_map; reflexivity).
  assert (F2 : Forall2 (fun x gs => group_reads (pdec_new (snd x)) gs Returned) rd (map (fun x => found (fst x)) rd)).
  { assert (G : forall x, In x r' -> group_reads (pdec_new (in_first (snd x))) (found (fst x)) Returned).
    { intros [p i] I. cbn [fst snd]. assert (IP : In p (mg_paths m)) by (apply KP; apply (in_map fst) in I; exact I).
      destruct (AF p IP) as (i' & E & G). apply (Permutation_in _ (Permutation_sym PR)) in I. rewrite (HM _ _ I) in E. injection E as ->. exact G. }
    unfold rd. clear -G. induction r' as [|x r' IH]; cbn [map]; [constructor|]. constructor; [apply (G x); left; reflexivity|].
    apply IH. intros y Y. apply G. right. exact Y. }
  destruct (C79_merge_reads m rd _ [] F2) as (n0 & EV).
  match type of EV with context [Some (Val ?i)] => set (idx := i) in EV end.
  assert (PK := union_all m rd found [] [] picks_nil). cbn [app] in PK. fold idx in PK.
  set (l := sort_index (lo_index h idx)).
  assert (PL : Permutation idx l) by (etransitivity; [apply HI|apply sort_perm]). destruct PK as (N & S & C).
  assert (IQ : forall q, In q (flat_map (fun x => filter_map_opt (group_ptr m (fst x)) (found (fst x))) rd) <->
    exists p g, In p (mg_paths m) /\ In g (found p) /\ group_ptr m p g = Some q).
  { intro q. rewrite in_flat_map. split.
    - intros (x & I & J). apply in_filter_map_opt in J. destruct J as (g & G & E). exists (fst x), g. split; [|auto].
      apply KP. rewrite <- FR. apply in_map. exact I.
    - intros (p & g & I & J & E). apply KP in I. rewrite <- FR in I. apply in_map_iff in I. destruct I as (x & <- & I). exists x. split; [exact I|].
      apply in_filter_map_opt. eauto. }
  destruct (Forall_choose _ _ (fun q x => points m q x /\ In (fst x) (mg_paths m) /\ In (snd x) (found (fst x))) l) as [sel FS].
  { apply Forall_forall. intros q I. apply (Permutation_in _ (Permutation_sym PL)) in I. apply S, IQ in I. destruct I as (p & g & I & J & E).
    exists (p, g). split; [exact E|]. auto. }
  exists l, sel. split; [|split; [|split; [|split; [|split; [|split]]]]].
  - clear -FS. induction FS as [|q x l sel (P & _) FS IH]; constructor; assumption.
  - apply sort_sorted.
  - apply (Permutation_NoDup (Permutation_map pkey PL)). exact N.
  - intros q I. apply (Permutation_in _ (Permutation_sym PL)) in I. apply S, IQ in I. destruct I as (p & g & I & J & E).
    rewrite (points_path m q (p, g) E). exact I.
  - clear -FS. induction FS as [|q x l sel (_ & P) FS IH]; constructor; assumption.
  - intros q p g I J E. apply (Permutation_in _ (Permutation_map pkey PL)). apply C, IQ. eauto.
  - exists n0. intros n L. rewrite EV by exact L. f_equal. apply copy_chunks. intros q I.
    apply (Permutation_in _ (Permutation_sym PL)) in I. apply S, IQ in I. destruct I as (p & g & I & J & E). rewrite (points_path m q (p, g) E). cbn [fst].
    assert (IK : In p (map fst r)) by (apply HK; left; exact I). apply in_map_iff in IK. destruct IK as ([p' i] & EP & IR). cbn [fst] in EP. subst p'.
    exists i. split; [apply aget_nodup; [exact ND|exact IR]|apply HM; exact IR].
Qed.
Lemma points_key : forall m q x, points m q x -> gkey m (snd x) = Some (pt_time q, pt_apid q, pt_seqid q).
Proof.
  intros m q x E. apply group_ptr_some in E. destruct E as (f & rest & t & E & F & T & W & R & EQ). unfold gkey. rewrite E, T, EQ. reflexivity.
Qed.
Lemma points_order : forall m q x, points m q x -> pt_order q = order_of m (pt_apid q).
Proof. intros m q x E. apply group_ptr_some in E. destruct E as (f & rest & t & _ & _ & _ & _ & _ & ->). reflexivity. Qed.
Lemma live_chosen : forall m found l sel, Forall2 (points m) l sel -> NoDup (map pkey l) ->
  Forall (fun x => In (fst x) (mg_paths m) /\ In (snd x) (found (fst x))) sel ->
  (forall q p g, In p (mg_paths m) -> In g (found p) -> group_ptr m p g = Some q -> In (pkey q) (map pkey l)) -> chosen m found sel.
Proof.
  intros m found l sel F N FA C. split; [|split].
  - clear N C. induction F as [|q x l sel P F IH]; [constructor|]. inversion FA as [|? ? (I & J) FA']; subst. constructor; [|auto].
    apply group_ptr_some in P. destruct P as (f & rest & t & E & FL & T & W & R & _). exists f, rest, t. auto 10.
  - clear C FA. revert N. induction F as [|q x l sel P F IH]; cbn [map]; intro N; [constructor|]. inversion N as [|? ? N1 N2]; subst. constructor; [|auto].
    intro I. apply N1. apply in_map_iff in I. destruct I as (y & E & I). clear -P F E I. induction F as [|q' x' l sel P' F IHF]; [destruct I|].
    destruct I as [->|I]; [left|right; auto]. rewrite (points_key _ _ _ P), (points_key _ _ _ P') in E. unfold pkey. injection E as -> -> ->. reflexivity.
  - intros x (f & rest & t & I & J & E & FL & T & W & R).
    assert (P : exists q, points m q x). { eexists. apply group_ptr_some. exists f, rest, t. repeat (split; [eassumption|]). reflexivity. }
    destruct P as (q & P). assert (K := C q _ _ I J P). clear C FA N. rewrite (points_key _ _ _ P).
    induction F as [|q' x' l sel P' F IHF]; [destruct K|]. destruct K as [K|K].
    + exists x'. split; [left; reflexivity|]. rewrite (points_key _ _ _ P'). unfold pkey in K. injection K as -> -> ->. reflexivity.
    + destruct (IHF K) as (y & Y & EY). exists y. split; [right; exact Y|exact EY].
Qed.
