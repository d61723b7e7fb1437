(* Lemmas for C100: the stage over any iterator, and over the list of what it was given *)
From Verif Require Import Base M_RsPipeline M_Live S_Live S_Pause S_RsSource M_RsSource L_RsPipeline.
Open Scope nat_scope.

Definition with_input {F} (fs : list F) (s : state (F := F)) : state :=
  mkState fs (st_submit s) (st_next s) (st_pending s) (st_running s) (st_results s) (st_jobs s) (st_dispatch s) (st_out s) (st_consumer s) (st_recv s) (st_aborted s).

Section Sim.
Context {S F : Type}.
Variable next : pullable S F.
Variable job : F -> outcome F.
Variable buf nthreads : nat.
Notation step := (step job buf nthreads).
Notation exec := (exec job buf nthreads).
Notation live_step := (live_step next job buf nthreads).
Notation live_exec := (live_exec next job buf nthreads).

Lemma stage_input : forall s l s', step s l s' -> l <> LTake -> l <> LEnd ->
  st_input s' = st_input s /\ (st_submit s = SDone -> st_submit s' = SDone) /\ forall fs, step (with_input fs s) l (with_input fs s').
Proof.
  intros s l s' H A B. destruct H; try congruence; (split; [reflexivity|]; split; [cbn; congruence|]; intro gs; cbn [with_input st_submit st_next st_pending st_running st_results st_jobs st_dispatch st_out st_consumer st_recv st_aborted]; econstructor; eassumption).
Qed.

Lemma done_rest : forall w ls w', live_exec w ls w' -> st_submit (snd w) = SDone -> fst w' = fst w /\ ~ In LTake ls /\ ~ In LEnd ls.
Proof.
  induction 1 as [w|w l w1 ls w2 ST EX IH]; intro D; [cbn; auto|].
  destruct ST as [n src f src' nx pe ru re jo di ou co rc E|n src src' nx pe ru re jo di ou co rc E|n src nx pe ru re jo di ou co rc E|src s l s' A B H]; cbn in D; try discriminate.
  destruct (stage_input _ _ _ H A B) as (_ & K & _). destruct (IH (K D)) as (X & Y & Z). split; [exact X|]. cbn. split; intros [|]; congruence || contradiction.
Qed.

(* with the frames it was given as its input the stage of M_RsPipeline.v does the same *)
Lemma live_list : forall w ls w', live_exec w ls w' -> st_input (snd w) = [] ->
  exists frames after, hands next (fst w) frames after /\ st_input (snd w') = [] /\
    exec (with_input frames (snd w)) ls (snd w') /\
    (~ In LEnd ls -> fst w' = after) /\
    (In LEnd ls -> stops next after (fst w')).
Proof.
  induction 1 as [w|w l w1 ls w2 ST EX IH]; intro I0.
  - exists [], (fst w). split; [constructor|]. split; [exact I0|]. split; [destruct w as [src []]; cbn in *; subst; constructor|]. split; [reflexivity|intros []].
  - destruct ST as [n src f src' nx pe ru re jo di ou co rc E|n src src' nx pe ru re jo di ou co rc E|n src nx pe ru re jo di ou co rc E|src s l s' A B H].
    + destruct (IH eq_refl) as (fs & af & H1 & H2 & H3 & H4 & H5). exists (f :: fs), af. cbn [fst snd] in *.
      split; [econstructor; eassumption|]. split; [exact H2|]. split; [econstructor; [apply st_take|exact H3]|].
      split; intro K; [apply H4; intro; apply K; right; assumption|apply H5; destruct K; [discriminate|assumption]].
    + destruct (IH eq_refl) as (fs & af & H1 & H2 & H3 & _). destruct (done_rest _ _ _ EX eq_refl) as (K & KT & KE). cbn [fst snd] in *.
      assert (fs = []). { destruct fs as [|f fs]; [reflexivity|]. exfalso. clear -H1 H3 KT EX H2. 
        assert (G : forall s0 l0 s1, exec s0 l0 s1 -> ~ In LTake l0 -> st_input s1 = st_input s0).
        { clear. induction 1 as [|s0 l0 s1 ls s2 ST _ IH]; intro N; [reflexivity|]. rewrite IH; [|intro; apply N; right; assumption].
          destruct ST; try reflexivity. exfalso. apply N. left. reflexivity. }
        specialize (G _ _ _ H3 KT). rewrite H2 in G. discriminate. }
      subst fs. exists [], src. split; [constructor|]. split; [exact H2|]. split; [econstructor; [apply st_end|exact H3]|].
      split; intro X; [exfalso; apply X; left; reflexivity|]. exists n. left. rewrite K. exact E.
    + destruct (IH eq_refl) as (fs & af & H1 & H2 & H3 & _). destruct (done_rest _ _ _ EX eq_refl) as (K & KT & KE). cbn [fst snd] in *.
      assert (fs = []). { destruct fs as [|f fs]; [reflexivity|]. exfalso. clear -H1 H3 KT EX H2. 
        assert (G : forall s0 l0 s1, exec s0 l0 s1 -> ~ In LTake l0 -> st_input s1 = st_input s0).
        { clear. induction 1 as [|s0 l0 s1 ls s2 ST _ IH]; intro N; [reflexivity|]. rewrite IH; [|intro; apply N; right; assumption].
          destruct ST; try reflexivity. exfalso. apply N. left. reflexivity. }
        specialize (G _ _ _ H3 KT). rewrite H2 in G. discriminate. }
      subst fs. exists [], src. split; [constructor|]. split; [exact H2|]. split; [econstructor; [apply st_end|exact H3]|].
      split; intro X; [exfalso; apply X; left; reflexivity|]. exists n. right. split; [exact E|exact K].
    + cbn [fst snd] in *. destruct (stage_input _ _ _ H A B) as (K1 & K2 & K3). destruct IH as (fs & af & H1 & H2 & H3 & H4 & H5); [congruence|].
      exists fs, af. split; [exact H1|]. split; [exact H2|]. split; [econstructor; [apply K3|exact H3]|].
      split; intro X; [apply H4; intro; apply X; right; assumption|apply H5; destruct X; [congruence|assumption]].
Qed.

(* and the other way round *)
Lemma list_live : forall s ls s', exec s ls s' -> forall src after, hands next src (st_input s) after ->
  (In LEnd ls -> exists b, stops next after b) -> exists src', live_exec (src, with_input [] s) ls (src', with_input [] s').
Proof.
  induction 1 as [s|s l s1 ls s2 ST EX IH]; intros src af HD HE; [exists src; constructor|].
  assert (LL : l = LTake \/ l = LEnd \/ l <> LTake /\ l <> LEnd) by (destruct l; auto; right; right; split; discriminate).
  destruct LL as [->|[->|[A B]]].
  - inversion ST; subst; clear ST. cbn [st_input] in HD. inversion HD as [|n a b c x l' E HD']; subst. destruct (IH b af) as [src' X]; [exact HD'|intro K; apply HE; right; exact K|].
    exists src'. econstructor; [|exact X]. unfold with_input; cbn. eapply lv_take. exact E.
  - inversion ST; subst; clear ST. cbn [st_input] in HD. inversion HD; subst. destruct (HE (or_introl eq_refl)) as (b & n & [E|[E ->]]).
    + assert (X : exists src', live_exec (b, with_input [] (mkState [] SDone nx pe ru re jo di ou co rc false)) ls (src', with_input [] s2)).
      { clear -EX. remember (mkState [] SDone nx pe ru re jo di ou co rc false) as s eqn:ES. assert (D : st_submit s = SDone) by (subst; reflexivity). clear ES. exists b.
        induction EX as [s|s l s1 ls s2 ST EX IH]; [constructor|].
        assert (A : l <> LTake) by (intros ->; inversion ST; subst; discriminate). assert (B : l <> LEnd) by (intros ->; inversion ST; subst; discriminate).
        destruct (stage_input _ _ _ ST A B) as (_ & K & K2). econstructor; [apply lv_stage; [exact A|exact B|apply K2]|]. apply IH, K, D. }
      destruct X as [src' X]. exists src'. econstructor; [|exact X]. unfold with_input; cbn. eapply lv_end. exact E.
    + assert (X : exists src', live_exec (af, with_input [] (mkState [] SDone nx pe ru re jo di ou co rc false)) ls (src', with_input [] s2)).
      { clear -EX. remember (mkState [] SDone nx pe ru re jo di ou co rc false) as s eqn:ES. assert (D : st_submit s = SDone) by (subst; reflexivity). clear ES. exists af.
        induction EX as [s|s l s1 ls s2 ST EX IH]; [constructor|].
        assert (A : l <> LTake) by (intros ->; inversion ST; subst; discriminate). assert (B : l <> LEnd) by (intros ->; inversion ST; subst; discriminate).
        destruct (stage_input _ _ _ ST A B) as (_ & K & K2). econstructor; [apply lv_stage; [exact A|exact B|apply K2]|]. apply IH, K, D. }
      destruct X as [src' X]. exists src'. econstructor; [|exact X]. unfold with_input; cbn. eapply lv_panic. exact E.
  - destruct (stage_input _ _ _ ST A B) as (K1 & _ & K2). destruct (IH src af) as [src' X]; [rewrite K1; exact HD|intro K; apply HE; right; exact K|].
    exists src'. econstructor; [apply lv_stage; [exact A|exact B|apply K2]|exact X].
Qed.

(* from the start *)
Lemma from_start : forall src ls src' s, live_exec (start_with src) ls (src', s) ->
  exists frames after, hands next src frames after /\ st_input s = [] /\ exec (init frames) ls s /\
    (~ In LEnd ls -> src' = after) /\ (In LEnd ls -> stops next after src').
Proof. intros src ls src' s E. exact (live_list _ _ _ E eq_refl). Qed.

Lemma submit_ended : forall s ls s', exec s ls s' -> (st_dispatch s = DDone -> st_submit s = SDone) -> st_submit s' = SDone -> st_submit s = SDone \/ In LEnd ls.
Proof.
  induction 1 as [s|s l s1 ls s2 ST EX IH]; intros I D; [left; exact D|].
  destruct l; try (right; left; reflexivity); (destruct IH as [X|X]; [| exact D| |right; right; exact X]); inversion ST; subst; cbn in *; auto; try discriminate; try (intro; discriminate); try (left; apply I; reflexivity).
  all: try (intro; specialize (I ltac:(assumption)); congruence).
Qed.
End Sim.

Lemma steady_same : forall S F (next : pullable S F), steady next -> forall n m s x y, next n s = Some x -> next m s = Some y -> x = y.
Proof.
  intros S F next SD n m s x y A B. apply (SD n (Nat.max n m)) in A; [|lia]. apply (SD m (Nat.max n m)) in B; [|lia]. congruence.
Qed.
Lemma hands_prefix : forall S F (next : pullable S F), steady next -> forall s l s', hands next s l s' -> forall l' h, pulls next s l' h ->
  exists rest, l' = l ++ rest /\ pulls next s' rest h.
Proof.
  intros S F next SD s l s' H. induction H as [s|n s s1 s' a l E H IH]; intros l' h P; [exists l'; auto|].
  inversion P as [m ? b E2|m ? E2|? E2|m ? b c l2 h2 E2 P2]; subst.
  - pose proof (steady_same _ _ _ SD _ _ _ _ _ E E2). discriminate.
  - pose proof (steady_same _ _ _ SD _ _ _ _ _ E E2). discriminate.
  - rewrite E2 in E. discriminate.
  - pose proof (steady_same _ _ _ SD _ _ _ _ _ E E2) as Q. injection Q as <- <-. destruct (IH _ _ P2) as (rest & -> & K). exists rest. auto.
Qed.
Lemma stops_here : forall S F (next : pullable S F), steady next -> forall a b l h, stops next a b -> pulls next a l h -> l = [] /\ (h = EndsIn b \/ h = Breaks /\ b = a).
Proof.
  intros S F next SD a b l h (n & X) P. inversion P as [m ? c E2|m ? E2|? E2|m ? c d l2 h2 E2 P2]; subst; destruct X as [E|[E ->]].
  - pose proof (steady_same _ _ _ SD _ _ _ _ _ E E2) as Q. injection Q as <-. auto.
  - pose proof (steady_same _ _ _ SD _ _ _ _ _ E E2). discriminate.
  - pose proof (steady_same _ _ _ SD _ _ _ _ _ E E2). discriminate.
  - auto.
  - rewrite E2 in E. discriminate.
  - rewrite E2 in E. discriminate.
  - pose proof (steady_same _ _ _ SD _ _ _ _ _ E E2). discriminate.
  - pose proof (steady_same _ _ _ SD _ _ _ _ _ E E2). discriminate.
Qed.
Lemma pulls_hands : forall S F (next : pullable S F) s l h, pulls next s l h -> exists s', hands next s l s' /\ (h = Forever \/ exists b, stops next s' b).
Proof.
  induction 1 as [n s s' E|n s E|s E|n s s' a l h E P IH].
  - exists s. split; [constructor|]. right. exists s', n. auto.
  - exists s. split; [constructor|]. right. exists s, n. auto.
  - exists s. split; [constructor|]. auto.
  - destruct IH as (s2 & A & B). exists s2. split; [econstructor; eassumption|exact B].
Qed.
