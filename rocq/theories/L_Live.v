(* Lemmas about iterators that are pulled one item at a time *)
From Verif Require Import Base M_Reader M_Packet M_Group S_Group L_Base L_Packet L_Group M_Merge L_Merge M_Cli M_Live S_Live.
Open Scope nat_scope.

Definition mono {S A} (next : pullable S A) : Prop := forall n s x, next n s = Some x -> next (1 + n) s = Some x.
Lemma mono_le : forall S A (next : pullable S A), mono next -> forall n m s x, n <= m -> next n s = Some x -> next m s = Some x.
Proof. intros S A next M n m s x L E. induction L; [exact E|]. apply M. exact IHL. Qed.
Lemma mono_eq : forall S A (next : pullable S A), mono next -> forall n m s x y, next n s = Some x -> next m s = Some y -> x = y.
Proof.
  intros S A next M n m s x y E F. apply (mono_le _ _ _ M _ (n + m)) in E; [|lia]. apply (mono_le _ _ _ M _ (n + m)) in F; [|lia]. congruence.
Qed.
Lemma mono_direct : forall S A (next : S -> outcome (option A * S)), mono (direct next).
Proof. intros S A next n s x E. exact E. Qed.
Lemma mono_filter_mapped : forall S A B (f : A -> option B) (next : pullable S A), mono next -> mono (filter_mapped f next).
Proof.
  intros S A B f next M n. induction n as [|n IH]; intros s x E; [discriminate|].
  change (1 + Datatypes.S n) with (Datatypes.S (1 + n)). cbn [filter_mapped] in E. unfold filter_mapped; fold (filter_mapped f next).
  destruct (next n s) as [y|] eqn:EN; [|discriminate]. rewrite (M _ _ _ EN).
  destruct y as [[[a|] s']|]; try exact E. destruct (f a); [exact E|]. apply IH. exact E.
Qed.
Lemma mono_mapped : forall S A B (f : A -> B) (next : pullable S A), mono next -> mono (mapped f next).
Proof. intros S A B f next M n s x E. unfold mapped in *. destruct (next n s) as [y|] eqn:EN; [|discriminate]. rewrite (M _ _ _ EN). exact E. Qed.
Lemma mono_while_ok : forall S A (next : pullable S (result A)), mono next -> mono (while_ok next).
Proof. intros S A next M n s x E. unfold while_ok in *. destruct (next n s) as [y|] eqn:EN; [|discriminate]. rewrite (M _ _ _ EN). exact E. Qed.
Lemma mono_ga_loop : forall S (next : pullable S packet), mono next -> forall n s g x, ga_loop next n s g = Some x -> ga_loop next (1 + n) s g = Some x.
Proof.
  intros S next M n. induction n as [|n IH]; intros s g x E; [discriminate|].
  change (1 + Datatypes.S n) with (Datatypes.S (1 + n)). cbn [ga_loop] in E. unfold ga_loop; fold (@ga_loop S).
  destruct (next n s) as [y|] eqn:EN; [|discriminate]. rewrite (M _ _ _ EN).
  destruct y as [[[a|] s']|]; try exact E. destruct (gi_step g a) as [[[g' c]|g']|]; try exact E. apply IH. exact E.
Qed.
Lemma mono_ga : forall S (next : pullable S packet), mono next -> mono (ga_next next).
Proof.
  intros S next M n s x E. unfold ga_next in *. destruct (ga_done s); [exact E|].
  assert (K : forall g y, ga_loop next n (ga_src s) g = Some y -> ga_loop next (1 + n) (ga_src s) g = Some y) by (intros; apply mono_ga_loop; assumption).
  destruct (ga_cached s) as [p|].
  - destruct (gi_step None p) as [[[g c]|g]|]; try exact E.
    destruct (ga_loop next n (ga_src s) (Some g)) as [y|] eqn:EN; [|discriminate]. rewrite (K _ _ EN). exact E.
  - destruct (ga_loop next n (ga_src s) None) as [y|] eqn:EN; [|discriminate]. rewrite (K _ _ EN). exact E.
Qed.

(* ---- adaptors ---- *)
Lemma fm_skip : forall S A B (f : A -> option B) (next : pullable S A), mono next -> forall n s s' a l h,
  next n s = Some (Val (Some a, s')) -> f a = None -> pulls (filter_mapped f next) s' l h -> pulls (filter_mapped f next) s l h.
Proof.
  intros S A B f next M n s s' a l h E F P.
  assert (K : forall k y, filter_mapped f next k s' = Some y -> exists k', filter_mapped f next k' s = Some y).
  { intros k y Y. exists (Datatypes.S (n + k)). cbn [filter_mapped]. rewrite (mono_le _ _ _ M n (n + k) _ _ ltac:(lia) E), F.
    apply (mono_le _ _ _ (mono_filter_mapped _ _ _ f _ M) k (n + k)); [lia|exact Y]. }
  inversion P as [k ? ? Y|k ? Y|? Y|k ? s2 b l' ? Y P2]; subst.
  - destruct (K _ _ Y) as [k' E']. eapply pulls_end. exact E'.
  - destruct (K _ _ Y) as [k' E']. eapply pulls_panic. exact E'.
  - apply pulls_hang. intros [|k]; [reflexivity|]. cbn [filter_mapped]. destruct (next k s) as [y|] eqn:EK; [|reflexivity].
    rewrite (mono_eq _ _ _ M _ _ _ _ _ EK E), F. apply Y.
  - destruct (K _ _ Y) as [k' E']. eapply pulls_item; [exact E'|exact P2].
Qed.
Lemma fm_take : forall S A B (f : A -> option B) (next : pullable S A), forall n s s' a b l h,
  next n s = Some (Val (Some a, s')) -> f a = Some b -> pulls (filter_mapped f next) s' l h -> pulls (filter_mapped f next) s (b :: l) h.
Proof.
  intros S A B f next n s s' a b l h E F P. eapply pulls_item with (n := Datatypes.S n); [|exact P]. cbn [filter_mapped]. rewrite E, F. reflexivity.
Qed.
Lemma pulls_filter_mapped : forall S A B (f : A -> option B) (next : pullable S A), mono next -> forall s l h,
  pulls next s l h -> pulls (filter_mapped f next) s (filter_map_opt f l) h.
Proof.
  intros S A B f next M s l h P. induction P as [n s s' E|n s E|s E|n s s' a l h E P IH].
  - eapply pulls_end with (n := Datatypes.S n). cbn [filter_mapped]. rewrite E. reflexivity.
  - eapply pulls_panic with (n := Datatypes.S n). cbn [filter_mapped]. rewrite E. reflexivity.
  - apply pulls_hang. intros [|n]; [reflexivity|]. cbn [filter_mapped]. rewrite E. reflexivity.
  - cbn [filter_map_opt]. destruct (f a) as [b|] eqn:F; [eapply fm_take|eapply fm_skip]; eassumption.
Qed.
Lemma pulls_mapped : forall S A B (f : A -> B) (next : pullable S A) s l h, pulls next s l h -> pulls (mapped f next) s (map f l) h.
Proof.
  intros S A B f next s l h P. induction P as [n s s' E|n s E|s E|n s s' a l h E P IH].
  - eapply pulls_end with (n := n). unfold mapped. rewrite E. reflexivity.
  - eapply pulls_panic with (n := n). unfold mapped. rewrite E. reflexivity.
  - apply pulls_hang. intro n. unfold mapped. rewrite E. reflexivity.
  - eapply pulls_item with (n := n); [|exact IH]. unfold mapped. rewrite E. reflexivity.
Qed.
Lemma pulls_ok_only : forall S A (next : S -> outcome (option (result A) * S)) s items h, reads next s items h ->
  pulls (ok_only (direct next)) s (keep_ok items) h.
Proof.
  intros S A next s items h R. unfold ok_only. induction R as [s s' E|s E|s F|s s' a items h E R IH].
  - eapply pulls_end with (n := 1). cbn [filter_mapped]. unfold direct. rewrite E. reflexivity.
  - eapply pulls_panic with (n := 1). cbn [filter_mapped]. unfold direct. rewrite E. reflexivity.
  - apply pulls_hang. intro n. revert s F. induction n as [|n IH]; intros s F; [reflexivity|]. cbn [filter_mapped]. unfold direct at 1.
    destruct F as [s s' e E F]. rewrite E. cbn [result_ok]. apply IH. exact F.
  - destruct a as [a|e]; cbn [keep_ok].
    + eapply fm_take with (n := 0) (a := Ok a); [unfold direct; rewrite E; reflexivity|reflexivity|exact IH].
    + eapply fm_skip with (n := 0) (a := Err e); [apply mono_direct|unfold direct; rewrite E; reflexivity|reflexivity|exact IH].
Qed.
Lemma pulls_while_ok : forall S A (next : S -> outcome (option (result A) * S)) s items h, reads next s items h ->
  exists h', pulls (while_ok (direct next)) s (map_while_ok items) h' /\ h' <> Forever /\
    (h' = Breaks <-> h = Breaks /\ Forall (fun r => exists a, r = Ok a) items).
Proof.
  intros S A next s items h R. induction R as [s s' E|s E|s F|s s' a items h E R IH].
  - exists (EndsIn s'). split; [|split; [discriminate|split; [discriminate|intros [C _]; discriminate]]]. eapply pulls_end with (n := 0). unfold while_ok, direct. rewrite E. reflexivity.
  - exists Breaks. split; [|split; [discriminate|split; auto]]. eapply pulls_panic with (n := 0). unfold while_ok, direct. rewrite E. reflexivity.
  - destruct F as [s s' e E F]. exists (EndsIn s'). split; [|split; [discriminate|split; [discriminate|intros [C _]; discriminate]]].
    eapply pulls_end with (n := 0). unfold while_ok, direct. rewrite E. reflexivity.
  - destruct a as [a|e]; cbn [map_while_ok].
    + destruct IH as (h' & P & N & I). exists h'. split; [|split; [exact N|]].
      * eapply pulls_item with (n := 0); [|exact P]. unfold while_ok, direct. rewrite E. reflexivity.
      * rewrite I. split; intros [H1 H2]; (split; [exact H1|]); [constructor; eauto|apply Forall_inv_tail in H2; exact H2].
    + exists (EndsIn s'). split; [|split; [discriminate|split; [discriminate|]]].
      * eapply pulls_end with (n := 0). unfold while_ok, direct. rewrite E. reflexivity.
      * intros [_ C]. apply Forall_inv in C. destruct C as [a C]. discriminate.
Qed.

(* ---- groups ---- *)
Definition delivered (all gs : list pgroup) : Prop :=
  (all = gs /\ forall init g, gs = init ++ [g] -> closed g) \/ (exists g, all = gs ++ [g] /\ ~ closed g).
Lemma delivered_nil : delivered [] [].
Proof. left. split; [reflexivity|]. intros [|? ?] g C; discriminate. Qed.
Lemma delivered_cons : forall g all gs, (all <> [] \/ closed g) -> delivered all gs -> delivered (g :: all) (g :: gs).
Proof.
  intros g all gs H [[-> D]|(g1 & -> & D)].
  - left. split; [reflexivity|]. intros init g1 E. destruct init as [|i init].
    + cbn [app] in E. injection E as <- ->. destruct H as [H|H]; [congruence|exact H].
    + cbn [app] in E. injection E as _ E. eapply D. exact E.
  - right. exists g1. split; [reflexivity|exact D].
Qed.
Lemma delivered_open : forall g, ~ closed g -> delivered [g] [].
Proof. intros g H. right. exists g. split; [reflexivity|exact H]. Qed.

Lemma ends_open_cons : forall g all, (all <> [] \/ closed g) -> (ends_open (g :: all) <-> ends_open all).
Proof.
  intros g all H. split.
  - intros (init & x & E & N). destruct init as [|i init]; cbn [app] in E; injection E as -> E; [|exists init, x; auto].
    subst all. destruct H as [H|H]; [congruence|contradiction].
  - intros (init & x & -> & N). exists (g :: init), x. auto.
Qed.
Lemma ends_open_nil : ~ ends_open [].
Proof. intros ([|] & g & E & _); discriminate. Qed.

Lemma ends_open_dec : forall gs, Forall (fun g => g_packets g <> []) gs -> ends_open gs \/ ~ ends_open gs.
Proof.
  intros gs F. destruct gs as [|x l] using rev_ind; [right; apply ends_open_nil|]. clear IHl. apply Forall_app in F. destruct F as [_ F]. apply Forall_inv in F.
  destruct (g_packets x) as [|p [|q t]] eqn:E; [contradiction| |].
  - destruct (N.eq_dec (sequence_flags (p_header p)) 3) as [Y|Y].
    + right. intros (init & g & EE & N). apply app_inj_tail in EE. destruct EE as [_ <-]. apply N. exists p. auto.
    + left. exists l, x. split; [reflexivity|]. intros (p' & E' & Y'). rewrite E in E'. injection E' as <-. contradiction.
  - left. exists l, x. split; [reflexivity|]. intros (p' & E' & Y'). rewrite E in E'. discriminate.
Qed.

Section Gather.
Context {S : Type} (next : pullable S packet) (M : mono next).

Lemma ga_loop_run : forall s ps h, pulls next s ps h -> forall run rest g p0 tl, ps = run ++ rest ->
  g_packets g = p0 :: tl -> Forall (fun q => apid_of q = apid_of p0) run ->
  match rest with [] => True | q :: _ => apid_of q <> apid_of p0 end ->
  let g' := mkGroup (g_apid g) (g_packets g ++ run) in
  match rest with
  | q :: rest' => exists n s2, ga_loop next n s (Some g) = Some (Val (Some g', Some q, s2, false)) /\ pulls next s2 rest' h
  | [] => match h with
          | EndsIn s' => exists n, ga_loop next n s (Some g) = Some (Val (Some g', None, s', true))
          | Breaks => exists n, ga_loop next n s (Some g) = Some Panic
          | Forever => forall n, ga_loop next n s (Some g) = None
          end
  end.
Proof.
  intros s ps h P. induction P as [n s s' E|n s E|s E|n s s' a l h E P IH]; intros run rest g p0 tl EP EG FR HR g'.
  - symmetry in EP. apply app_eq_nil in EP. destruct EP as [-> ->]. exists (1 + n). cbn [ga_loop Nat.add]. rewrite E. unfold g'. rewrite app_nil_r. destruct g; reflexivity.
  - symmetry in EP. apply app_eq_nil in EP. destruct EP as [-> ->]. exists (1 + n). cbn [ga_loop Nat.add]. rewrite E. reflexivity.
  - symmetry in EP. apply app_eq_nil in EP. destruct EP as [-> ->]. intros [|n]; [reflexivity|]. cbn [ga_loop]. rewrite E. reflexivity.
  - destruct run as [|x run].
    + cbn [app] in EP. subst rest. exists (1 + n), s'. split; [|exact P]. cbn [ga_loop Nat.add]. rewrite E. unfold gi_step. rewrite EG. cbn [get nth_error obind].
      unfold get. cbn [nth_error obind]. unfold apid_of in HR. apply N.eqb_neq in HR. rewrite HR. cbn [negb]. unfold g'. rewrite app_nil_r. destruct g; reflexivity.
    + cbn [app] in EP. injection EP as <- EP. apply Forall_inv in FR as FX. apply Forall_inv_tail in FR.
      assert (ST : gi_step (Some g) a = Val (inr (mkGroup (g_apid g) (g_packets g ++ [a])))).
      { unfold gi_step. rewrite EG. unfold get. cbn [nth_error obind]. unfold apid_of in FX. rewrite FX, N.eqb_refl. reflexivity. }
      specialize (IH run rest (mkGroup (g_apid g) (g_packets g ++ [a])) p0 (tl ++ [a]) EP). cbn [g_packets g_apid] in IH. rewrite EG in IH. cbn [app] in IH. specialize (IH eq_refl FR HR).
      assert (GE : mkGroup (g_apid g) ((p0 :: tl ++ [a]) ++ run) = g').
      { unfold g'. rewrite EG. cbn [app]. rewrite <- app_assoc. reflexivity. }
      cbn [app] in GE. rewrite GE in IH.
      assert (UP : forall k y, ga_loop next k s' (Some (mkGroup (g_apid g) (p0 :: tl ++ [a]))) = Some y -> ga_loop next (1 + (n + k)) s (Some g) = Some y).
      { intros k y Y. cbn [ga_loop Nat.add]. rewrite (mono_le _ _ _ M n (n + k) _ _ ltac:(lia) E), ST, EG. cbn [app].
        clear -Y M. replace (n + k) with (k + n) by lia. revert Y. generalize (Some (mkGroup (g_apid g) (p0 :: tl ++ [a]))). intros o Y.
        induction n as [|n IHn]; [rewrite Nat.add_0_r; exact Y|]. replace (k + Datatypes.S n) with (1 + (k + n)) by lia. apply mono_ga_loop; [exact M|exact IHn]. }
      destruct rest as [|q rest].
      * destruct h as [s2| |].
        -- destruct IH as [k Y]. eexists. apply UP. exact Y.
        -- destruct IH as [k Y]. eexists. apply UP. exact Y.
        -- intros [|k]; [reflexivity|]. cbn [ga_loop]. destruct (next k s) as [y|] eqn:EK; [|reflexivity].
           rewrite (mono_eq _ _ _ M _ _ _ _ _ EK E), ST, EG. cbn [app]. apply IH.
      * destruct IH as (k & s2 & Y & P2). eexists. exists s2. split; [apply UP; exact Y|exact P2].
Qed.

Lemma ga_stuck : forall s, (forall n, next n s = None) -> forall n, ga_next next n (mkGather s None false) = None.
Proof. intros s E [|n]; cbn [ga_next ga_done ga_cached ga_src ga_loop]; [reflexivity|]. unfold ga_next. cbn. rewrite E. reflexivity. Qed.

(* the first packet of a state *)
Lemma ga_head : forall s c ps h p rest, pulls next s ps h -> restart c ps = p :: rest ->
  exists s2, pulls next s2 rest h /\
   (is_standalone p = true -> exists n, ga_next next n (mkGather s c false) = Some (Val (Some (mkGroup (apid_of p) [p]), mkGather s2 None false))) /\
   (is_standalone p = false -> forall y,
      let fin x := match x with
        | None => None | Some Panic => Some Panic
        | Some (Val (g, c, src', broke)) => Some (Val
          (if (broke : bool) then match g with
           | Some g => (Some g, mkGather src' c false)
           | None => match c with
               | Some p => (Some (mkGroup (apid (p_header p)) [p]), mkGather src' None true)
               | None => (None, mkGather src' None true) end end
         else (g, mkGather src' c false))) end in
      ((exists k, ga_loop next k s2 (Some (mkGroup (apid_of p) [p])) = Some y) -> exists n, ga_next next n (mkGather s c false) = fin (Some y)) /\
      ((forall k, ga_loop next k s2 (Some (mkGroup (apid_of p) [p])) = None) -> forall n, ga_next next n (mkGather s c false) = None)).
Proof.
  intros s c ps h p rest P R. destruct c as [q|]; cbn [restart] in R.
  - injection R as -> ->. exists s. split; [exact P|]. split.
    + intros SA. exists 0. unfold ga_next. cbn [ga_done ga_cached ga_src]. unfold gi_step. rewrite SA. reflexivity.
    + intros SA y fin. split.
      * intros [k Y]. exists k. unfold ga_next. cbn [ga_done ga_cached ga_src]. unfold gi_step. rewrite SA. unfold apid_of in Y. rewrite Y. reflexivity.
      * intros Y n. unfold ga_next. cbn [ga_done ga_cached ga_src]. unfold gi_step. rewrite SA. unfold apid_of in Y. rewrite Y. reflexivity.
  - subst ps. inversion P as [| | |n ? s2 ? ? ? E P2]; subst. exists s2. split; [exact P2|]. split.
    + intros SA. exists (1 + n). unfold ga_next. cbn [ga_done ga_cached ga_src ga_loop Nat.add]. rewrite E. unfold gi_step. rewrite SA. reflexivity.
    + intros SA y fin. split.
      * intros [k Y]. exists (1 + (n + k)). unfold ga_next. cbn [ga_done ga_cached ga_src ga_loop Nat.add].
        rewrite (mono_le _ _ _ M n (n + k) _ _ ltac:(lia) E). unfold gi_step. rewrite SA. unfold apid_of in Y.
        assert (Y2 : ga_loop next (n + k) s2 (Some (mkGroup (apid (p_header p)) [p])) = Some y).
        { clear -Y M. replace (n + k) with (k + n) by lia. induction n as [|n IHn]; [rewrite Nat.add_0_r; exact Y|].
          replace (k + Datatypes.S n) with (1 + (k + n)) by lia. apply mono_ga_loop; [exact M|exact IHn]. }
        rewrite Y2. reflexivity.
      * intros Y [|k]; unfold ga_next; cbn [ga_done ga_cached ga_src ga_loop]; [reflexivity|]. destruct (next k s) as [z|] eqn:EK; [|reflexivity].
        rewrite (mono_eq _ _ _ M _ _ _ _ _ EK E). unfold gi_step. rewrite SA. unfold apid_of in Y. rewrite Y. reflexivity.
Qed.

Lemma gather_pulls : forall l all, grouping l all -> forall s c ps h, pulls next s ps h -> restart c ps = l ->
  match h with
  | EndsIn s' => (ends_open all -> hands (ga_next next) (mkGather s c false) all (mkGather s' None false)) /\
      (~ ends_open all -> pulls (ga_next next) (mkGather s c false) all (EndsIn (mkGather s' None true)))
  | Breaks => exists gs, delivered all gs /\ pulls (ga_next next) (mkGather s c false) gs Breaks
  | Forever => exists gs, delivered all gs /\ pulls (ga_next next) (mkGather s c false) gs Forever
  end.
Proof.
  intros l all G. induction G as [|p ps' all SF G IH|p run rest all SF FR HR G IH]; intros s c ps h P R.
  - destruct c; [discriminate|]. cbn [restart] in R. subst ps. inversion P as [n ? s' E|n ? E|? E|]; subst.
    + split; [intro C; destruct (ends_open_nil C)|intros _]. eapply pulls_end with (n := 1 + n). unfold ga_next. cbn [ga_done ga_cached ga_src ga_loop Nat.add]. rewrite E. reflexivity.
    + exists []. split; [apply delivered_nil|]. eapply pulls_panic with (n := 1 + n). unfold ga_next. cbn [ga_done ga_cached ga_src ga_loop Nat.add]. rewrite E. reflexivity.
    + exists []. split; [apply delivered_nil|]. apply pulls_hang. apply ga_stuck. exact E.
  - destruct (ga_head _ _ _ _ _ _ P R) as (s2 & P2 & HS & _). destruct HS as [n HS]; [unfold is_standalone, SEQ_UNSEGMENTED; rewrite SF; reflexivity|].
    specialize (IH s2 None ps' h P2 eq_refl).
    assert (CL : closed (mkGroup (apid_of p) [p])) by (exists p; split; [reflexivity|exact SF]).
    destruct h as [s'| |].
    + rewrite ends_open_cons by (right; exact CL). destruct IH as [I1 I2]. split; intro O; [eapply hands_item; [exact HS|apply I1; exact O]|eapply pulls_item; [exact HS|apply I2; exact O]].
    + destruct IH as (gs & D & P3). eexists. split; [apply delivered_cons; [right; exact CL|exact D]|]. eapply pulls_item; [exact HS|exact P3].
    + destruct IH as (gs & D & P3). eexists. split; [apply delivered_cons; [right; exact CL|exact D]|]. eapply pulls_item; [exact HS|exact P3].
  - destruct (ga_head _ _ _ _ _ _ P R) as (s2 & P2 & _ & HS).
    assert (SA : is_standalone p = false) by (unfold is_standalone, SEQ_UNSEGMENTED; apply N.eqb_neq; exact SF).
    specialize (HS SA).
    assert (OP : ~ closed (mkGroup (apid_of p) (p :: run))).
    { intros (q & E & F). cbn [g_packets] in E. injection E as <- _. congruence. }
    assert (L := ga_loop_run _ _ _ P2 run rest (mkGroup (apid_of p) [p]) p [] eq_refl eq_refl FR HR). cbn [g_packets g_apid app] in L. cbv zeta in L.
    destruct rest as [|q rest'].
    + inversion G; subst all. destruct h as [s'| |].
      * destruct L as [k L]. destruct (HS (Val (Some (mkGroup (apid_of p) (p :: run)), None, s', true))) as [[n E] _]; [exists k; exact L|].
        assert (OO : ends_open [mkGroup (apid_of p) (p :: run)]) by (exists [], (mkGroup (apid_of p) (p :: run)); auto).
        split; [intros _|contradiction]. eapply hands_item; [exact E|apply hands_nil].
      * exists []. split; [apply delivered_open; exact OP|]. destruct (HS Panic) as [[n E] _]; [exact L|]. eapply pulls_panic. exact E.
      * exists []. split; [apply delivered_open; exact OP|]. apply pulls_hang. destruct (HS Panic) as [_ E]. apply E. exact L.
    + destruct L as (k & s3 & L & P3). destruct (HS (Val (Some (mkGroup (apid_of p) (p :: run)), Some q, s3, false))) as [[n E] _]; [exists k; exact L|].
      assert (AN : all <> []) by (inversion G; discriminate).
      specialize (IH s3 (Some q) rest' h P3 eq_refl). destruct h as [s'| |].
      * rewrite ends_open_cons by (left; exact AN). destruct IH as [I1 I2]. split; intro O; [eapply hands_item; [exact E|apply I1; exact O]|eapply pulls_item; [exact E|apply I2; exact O]].
      * destruct IH as (gs & D & P4). eexists. split; [apply delivered_cons; [left; exact AN|exact D]|]. eapply pulls_item; [exact E|exact P4].
      * destruct IH as (gs & D & P4). eexists. split; [apply delivered_cons; [left; exact AN|exact D]|]. eapply pulls_item; [exact E|exact P4].
Qed.
End Gather.

(* ---- loops ---- *)
Fixpoint fold_ok {A B} (body : B -> A -> outcome B) (b : B) (l : list A) : outcome B :=
  match l with
  | [] => Val b
  | a :: l => let* b' := body b a in fold_ok body b' l
  end.
Lemma for_each_pulls : forall S A B (next : pullable S A) (body : B -> A -> outcome B), mono next -> forall s l h, pulls next s l h ->
  forall b b', fold_ok body b l = Val b' -> eventually (fun n => for_each next body n s b) (b', status_of h).
Proof.
  intros S A B next body M s l h P. induction P as [n s s' E|n s E|s E|n s s' a l h E P IH]; intros b b' F; cbn [fold_ok] in F.
  - injection F as <-. exists (1 + n). intros [|m] L; [lia|]. cbn [for_each]. rewrite (mono_le _ _ _ M n m _ _ ltac:(lia) E). reflexivity.
  - injection F as <-. exists (1 + n). intros [|m] L; [lia|]. cbn [for_each]. rewrite (mono_le _ _ _ M n m _ _ ltac:(lia) E). reflexivity.
  - injection F as <-. exists 0. intros [|m] _; [reflexivity|]. cbn [for_each]. rewrite E. reflexivity.
  - destruct (body b a) as [b1|] eqn:EB; cbn [obind] in F; [|discriminate]. destruct (IH b1 b' F) as [n0 H]. exists (1 + n + n0). intros [|m] L; [lia|].
    cbn [for_each]. rewrite (mono_le _ _ _ M n m _ _ ltac:(lia) E), EB. apply H. lia.
Qed.
Lemma for_each_hangs : forall S A B (next : pullable S A) (body : B -> A -> outcome B), mono next -> forall s l, pulls next s l Forever ->
  forall b b', fold_ok body b l = Val b' -> forall n, snd (for_each next body n s b) = Running.
Proof.
  intros S A B next body M s l P. remember (@Forever S) as h eqn:EH. induction P as [n s s' E|n s E|s E|n s s' a l h E P IH]; try discriminate; intros b b' F m.
  - destruct m as [|m]; [reflexivity|]. cbn [for_each]. rewrite E. reflexivity.
  - cbn [fold_ok] in F. destruct (body b a) as [b1|] eqn:EB; cbn [obind] in F; [|discriminate]. destruct m as [|m]; [reflexivity|]. cbn [for_each].
    destruct (next m s) as [y|] eqn:EK; [|reflexivity]. rewrite (mono_eq _ _ _ M _ _ _ _ _ EK E), EB. eapply IH; [exact EH|exact F].
Qed.
(* going on only adds to what was done *)
Lemma for_each_more : forall S A B (next : pullable S A) (body : B -> A -> outcome B), mono next -> forall n m s b, n <= m ->
  (snd (for_each next body n s b) <> Running -> for_each next body m s b = for_each next body n s b) /\
  exists l, fold_ok body (fst (for_each next body n s b)) l = Val (fst (for_each next body m s b)).
Proof.
  intros S A B next body M n. induction n as [|n IH]; intros m s b L.
  - cbn [for_each fst snd]. split; [congruence|]. clear L. revert s b. induction m as [|m IHm]; intros s b; [exists []; reflexivity|]. cbn [for_each].
    destruct (next m s) as [[[[a|] s']|]|]; try (exists []; reflexivity). destruct (body b a) as [b1|] eqn:EB; [|exists []; reflexivity].
    destruct (IHm s' b1) as [l F]. exists (a :: l). cbn [fold_ok]. rewrite EB. exact F.
  - destruct m as [|m]; [lia|]. cbn [for_each]. destruct (next n s) as [y|] eqn:EN.
    + rewrite (mono_le _ _ _ M n m _ _ ltac:(lia) EN). destruct y as [[[a|] s']|]; try (split; [reflexivity|exists []; reflexivity]).
      destruct (body b a) as [b1|] eqn:EB; [|split; [reflexivity|exists []; reflexivity]]. apply IH. lia.
    + cbn [fst snd]. split; [congruence|].
      assert (K : forall s b, exists l, fold_ok body b l = Val (fst (for_each next body (1 + m) s b))).
      { clear. intros s b. generalize (1 + m). intro k. revert s b. induction k as [|k IHk]; intros s b; [exists []; reflexivity|]. cbn [for_each].
        destruct (next k s) as [[[[a|] s']|]|]; try (exists []; reflexivity). destruct (body b a) as [b1|] eqn:EB; [|exists []; reflexivity].
        destruct (IHk s' b1) as [l F]. exists (a :: l). cbn [fold_ok]. rewrite EB. exact F. }
      destruct (K s b) as [l F]. exists l. exact F.
Qed.
