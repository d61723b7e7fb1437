(* Lemmas for P_Stdout.v. *)
From Verif Require Import Base M_Reader M_Cli M_Write M_Main M_Stdout S_Write S_Stdout L_Write.
Open Scope N_scope.

Definition total (w : lwriter) : list N := w_got (lw_raw w) ++ lw_buf w.
(* one step that writes b *)
Definition stepped (w : lwriter) (b : list N) (st : option iokind) (w' : lwriter) : Prop :=
  w_fin (lw_raw w') = w_fin (lw_raw w) /\ beginning (w_got (lw_raw w)) (w_got (lw_raw w')) /\
  match st with
  | None => total w' = total w ++ b /\
            (forall k, first_failure (w_evs (lw_raw w')) (w_fin (lw_raw w')) k -> first_failure (w_evs (lw_raw w)) (w_fin (lw_raw w)) k)
  | Some k => beginning (total w') (total w ++ b) /\ first_failure (w_evs (lw_raw w)) (w_fin (lw_raw w)) k
  end.
Lemma beginning_refl : forall l, beginning l l.
Proof. intros l. exists []. symmetry. apply app_nil_r. Qed.
Lemma stepped_refl : forall w, stepped w [] None w.
Proof. intros w. split; [reflexivity|]. split; [apply beginning_refl|]. split; [symmetry; apply app_nil_r|auto]. Qed.
Lemma stepped_trans : forall w1 b1 w2 b2 st w3, stepped w1 b1 None w2 -> stepped w2 b2 st w3 -> stepped w1 (b1 ++ b2) st w3.
Proof.
  intros w1 b1 w2 b2 st w3 (F1 & G1 & T1 & P1) (F2 & G2 & H2). split; [congruence|]. split; [eapply beginning_trans; eassumption|].
  destruct st as [k|].
  - destruct H2 as (T2 & P2). split; [rewrite T1, <- app_assoc in T2; exact T2|]. apply P1. exact P2.
  - destruct H2 as (T2 & P2). split; [rewrite T2, T1, app_assoc; reflexivity|]. auto.
Qed.
Lemma stepped_fail : forall w b b' k w', stepped w b (Some k) w' -> stepped w (b ++ b') (Some k) w'.
Proof.
  intros w b b' k w' (F & G & T & P). split; [exact F|]. split; [exact G|]. split; [|exact P].
  eapply beginning_trans; [exact T|]. exists b'. rewrite app_assoc. reflexivity.
Qed.

Lemma flush_stepped : forall w st w', flush_buf w = (st, w') -> stepped w [] st w' /\ (st = None -> lw_buf w' = []).
Proof.
  intros w st w' E. unfold flush_buf in E.
  destruct (write_all_evs (lw_buf w) (w_evs (lw_raw w)) (w_fin (lw_raw w))) as [[got st'] es] eqn:W.
  apply write_all_evs_spec in W. injection E as <- <-. unfold stepped, total. cbn [lw_raw lw_buf w_fin w_got w_evs].
  destruct st' as [k|].
  - destruct W as ((x & rest & E) & FF). split; [|discriminate]. split; [reflexivity|]. split; [eexists; reflexivity|].
    split; [|exact FF]. rewrite app_nil_r, E. rewrite skipn_app, skipn_all, Nat.sub_diag. cbn [app skipn].
    rewrite <- app_assoc. apply beginning_refl.
  - destruct W as (-> & FF). split.
    + split; [reflexivity|]. split; [eexists; reflexivity|]. split; [|exact FF].
      rewrite skipn_all, !app_nil_r. reflexivity.
    + intros _. apply skipn_all.
Qed.
Lemma raw_stepped : forall b w st raw, lw_buf w = [] -> write_all b (lw_raw w) = (st, raw) -> stepped w b st (mkLw (lw_buf w) raw).
Proof.
  intros b w st raw E W. apply write_all_spec in W. destruct W as (F & W). unfold stepped, total.
  cbn [lw_raw lw_buf]. rewrite E, !app_nil_r. split; [exact F|]. destruct st as [k|].
  - destruct W as ((l & x & rest & B & G) & FF). split; [exists l; exact G|]. split; [|exact FF].
    rewrite G, B. exists (x :: rest). rewrite <- app_assoc. reflexivity.
  - destruct W as (G & FF). split; [exists b; exact G|]. split; [exact G|exact FF].
Qed.
Lemma append_stepped : forall b w, stepped w b None (mkLw (lw_buf w ++ b) (lw_raw w)).
Proof.
  intros b w. unfold stepped, total. cbn [lw_raw lw_buf]. split; [reflexivity|]. split; [apply beginning_refl|].
  split; [apply app_assoc|auto].
Qed.
Lemma buf_stepped : forall b w st w', (length (lw_buf w) <= LINE_CAPACITY)%nat -> buf_write_all b w = (st, w') ->
  stepped w b st w' /\ (length (lw_buf w') <= LINE_CAPACITY)%nat.
Proof.
  intros b w st w' C E. unfold buf_write_all in E.
  destruct (Nat.ltb_spec (length b) (LINE_CAPACITY - length (lw_buf w))) as [L|L].
  - injection E as <- <-. split; [apply append_stepped|]. cbn [lw_buf]. rewrite app_length. lia.
  - destruct (Nat.ltb_spec (LINE_CAPACITY - length (lw_buf w)) (length b)) as [L'|L'].
    + destruct (flush_buf w) as [[k|] w1] eqn:Fl.
      * injection E as <- <-. pose proof Fl as Q. apply flush_stepped in Fl. destruct Fl as (Fl & _). split.
        { apply (stepped_fail _ []). exact Fl. }
        unfold flush_buf in Q. destruct (write_all_evs (lw_buf w) (w_evs (lw_raw w)) (w_fin (lw_raw w))) as [[got st'] es].
        injection Q as _ <-. cbn [lw_buf]. rewrite skipn_length. lia.
      * apply flush_stepped in Fl. destruct Fl as (Fl & B). specialize (B eq_refl).
        destruct (Nat.leb_spec LINE_CAPACITY (length b)) as [M|M].
        { destruct (write_all b (lw_raw w1)) as [st' raw] eqn:W. injection E as <- <-.
          split; [|cbn [lw_buf]; rewrite B; cbn; lia].
          apply (stepped_trans _ [] _ b _ _ Fl). apply raw_stepped; assumption. }
        injection E as <- <-. split; [|cbn [lw_buf]; rewrite B; cbn [app]; lia].
        apply (stepped_trans _ [] _ b _ _ Fl). apply append_stepped.
    + destruct (Nat.leb_spec LINE_CAPACITY (length b)) as [M|M].
      * assert (B : lw_buf w = []). { destruct (lw_buf w) as [|x l] eqn:B; [reflexivity|]. cbn [length] in *. lia. }
        destruct (write_all b (lw_raw w)) as [st' raw] eqn:W. injection E as <- <-.
        split; [apply raw_stepped; assumption|]. cbn [lw_buf]. rewrite B. cbn. lia.
      * injection E as <- <-. split; [apply append_stepped|]. cbn [lw_buf]. rewrite app_length. lia.
Qed.
Lemma split_spec : forall b, match split_lines b with
  | Some (l, t) => lines_and_rest b l t /\ l <> []
  | None => ~ In 10 b
  end.
Proof.
  induction b as [|c b IH]; cbn [split_lines]; [intros []|].
  destruct (split_lines b) as [[l t]|].
  - destruct IH as ((E & N1 & H) & N2). split; [|discriminate]. split; [rewrite E; reflexivity|]. split; [exact N1|]. right.
    destruct H as [->|(l' & ->)]; [contradiction|]. exists (c :: l'). reflexivity.
  - unfold NEWLINE. destruct (N.eqb_spec c 10) as [->|D].
    + split; [|discriminate]. split; [reflexivity|]. split; [exact IH|]. right. exists []. reflexivity.
    + intros [C|C]; [congruence|contradiction].
Qed.
Lemma suffix_in : forall w b w', stepped w b None w' -> ~ In 10 (lw_buf w ++ b) -> ~ In 10 (lw_buf w').
Proof.
  intros w b w' (_ & (d & D) & T & _) NI H. apply NI. unfold total in T. rewrite D, <- !app_assoc in T.
  apply app_inv_head in T. rewrite <- T. apply in_or_app. right. exact H.
Qed.
Lemma line_stepped : forall b w st w', (length (lw_buf w) <= LINE_CAPACITY)%nat -> ~ In 10 (lw_buf w) -> line_write_all b w = (st, w') ->
  stepped w b st w' /\ (length (lw_buf w') <= LINE_CAPACITY)%nat /\ (st = None -> ~ In 10 (lw_buf w')).
Proof.
  intros b w st w' C NI E. unfold line_write_all in E. pose proof (split_spec b) as SP.
  destruct (split_lines b) as [[l t]|].
  - destruct SP as ((EB & NT & _) & _).
    assert (K : forall st1 w1, (if is_nil (lw_buf w) then let '(st, raw) := write_all l (lw_raw w) in (st, mkLw (lw_buf w) raw)
               else match buf_write_all l w with (Some k, w) => (Some k, w) | (None, w) => flush_buf w end) = (st1, w1) ->
               stepped w l st1 w1 /\ (length (lw_buf w1) <= LINE_CAPACITY)%nat /\ (st1 = None -> lw_buf w1 = [])).
    { intros st1 w1 K. destruct (lw_buf w) as [|x y] eqn:B; cbn [is_nil] in K.
      - destruct (write_all l (lw_raw w)) as [s raw] eqn:W. injection K as <- <-.
        split; [rewrite <- B at 1; apply raw_stepped; assumption|]. cbn [lw_buf length]. split; [lia|reflexivity].
      - rewrite <- B in C. destruct (buf_write_all l w) as [[k|] w2] eqn:W; apply buf_stepped in W; try assumption; destruct W as (W & C2).
        + injection K as <- <-. split; [exact W|]. split; [exact C2|discriminate].
        + pose proof K as Q. apply flush_stepped in K. destruct K as (K & K2).
          split; [rewrite <- (app_nil_r l); eapply stepped_trans; eassumption|]. split; [|exact K2].
          unfold flush_buf in Q. destruct (write_all_evs (lw_buf w2) (w_evs (lw_raw w2)) (w_fin (lw_raw w2))) as [[got st'] es].
          injection Q as _ <-. cbn [lw_buf]. rewrite skipn_length. lia. }
    destruct (if is_nil (lw_buf w) then _ else _) as [st1 w1] eqn:E1. destruct (K _ _ eq_refl) as (K1 & K2 & K3).
    destruct st1 as [k|].
    + injection E as <- <-. rewrite EB. split; [apply stepped_fail; exact K1|]. split; [exact K2|discriminate].
    + specialize (K3 eq_refl). apply buf_stepped in E; [|exact K2]. destruct E as (E & C').
      split; [rewrite EB; eapply stepped_trans; eassumption|]. split; [exact C'|]. intros ->.
      apply (suffix_in _ _ _ E). rewrite K3. exact NT.
  - assert (L : last (lw_buf w) 0 =? NEWLINE = false).
    { apply N.eqb_neq. intros H. apply NI. destruct (lw_buf w) as [|x y]; [discriminate H|].
      assert (Q : In (last (x :: y) 0) (x :: y)); [|rewrite H in Q; exact Q].
      rewrite (app_removelast_last 0 (l := x :: y)) at 2 by discriminate. apply in_or_app. right. left. reflexivity. }
    rewrite L in E. apply buf_stepped in E; [|exact C]. destruct E as (E & C').
    split; [exact E|]. split; [exact C'|]. intros ->. apply (suffix_in _ _ _ E).
    intros H. apply in_app_or in H. tauto.
Qed.
Lemma lines_stepped : forall pieces w st w', (length (lw_buf w) <= LINE_CAPACITY)%nat -> ~ In 10 (lw_buf w) -> line_writes pieces w = (st, w') ->
  stepped w (concat pieces) st w' /\ (st = None -> ~ In 10 (lw_buf w')).
Proof.
  induction pieces as [|b pieces IH]; intros w st w' C NI E; cbn [line_writes concat] in *.
  - injection E as <- <-. split; [apply stepped_refl|auto].
  - destruct (line_write_all b w) as [[k|] w1] eqn:W; apply line_stepped in W; try assumption; destruct W as (W & C1 & N1).
    + injection E as <- <-. split; [apply stepped_fail; exact W|discriminate].
    + apply IH in E; [|exact C1|apply N1; reflexivity]. destruct E as (E & N2). split; [|exact N2].
      eapply stepped_trans; eassumption.
Qed.
Lemma reliable_no_failure : forall es f, reliable es f -> forall k, ~ first_failure es f k.
Proof.
  intros es f (-> & F) k H. remember Accepts as f eqn:Ef.
  induction H as [c|n es f k P H IH|es f k H IH|es f|es f k P]; subst.
  - discriminate.
  - apply IH; [|reflexivity]. inversion F; assumption.
  - apply IH; [|reflexivity]. inversion F; assumption.
  - inversion F as [|? ? [X|(n & X & Y)] ?]; subst; [discriminate|]. injection Y as <-. lia.
  - inversion F as [|? ? [X|(n & X & Y)] ?]; subst; congruence.
Qed.

(* ---- a device with room for the complete lines only ---- *)
Definition roomy (n : nat) (c : N) (g buf : list N) : lwriter := mkLw buf (mkWriter (room_evs n) (Refuses c) g).
Lemma write_evs_room : forall buf n c g, write_all buf (mkWriter (room_evs n) (Refuses c) g) =
  (if (length buf <=? n)%nat then None else Some (OtherIo c), mkWriter (room_evs (n - length buf)) (Refuses c) (g ++ firstn n buf)) ->
  exists got st es, write_all_evs buf (room_evs n) (Refuses c) = (got, st, es) /\
    st = (if (length buf <=? n)%nat then None else Some (OtherIo c)) /\ es = room_evs (n - length buf) /\ got = firstn n buf.
Proof.
  intros buf n c g E. unfold write_all in E. cbn [w_evs w_fin w_got] in E.
  destruct (write_all_evs buf (room_evs n) (Refuses c)) as [[got st] es]. injection E as E1 E2 E3.
  exists got, st, es. apply app_inv_head in E3. auto.
Qed.
Lemma flush_room : forall n c g buf, (length buf <= n)%nat -> flush_buf (roomy n c g buf) = (None, roomy (n - length buf) c (g ++ buf) []).
Proof.
  intros n c g buf L. unfold flush_buf, roomy. cbn [lw_raw lw_buf w_evs w_fin w_got].
  destruct (write_evs_room buf n c g (write_all_room n buf c g)) as (got & st & es & -> & -> & -> & ->).
  rewrite (proj2 (Nat.leb_le _ _)) by lia. rewrite firstn_all2 by lia. rewrite skipn_all. reflexivity.
Qed.
Lemma flush_full : forall c g buf, exists st, flush_buf (roomy 0 c g buf) = (st, roomy 0 c g buf).
Proof.
  intros c g buf. unfold flush_buf, roomy. cbn [lw_raw lw_buf w_evs w_fin w_got].
  destruct (write_evs_room buf 0 c g (write_all_room 0 buf c g)) as (got & st & es & -> & -> & -> & ->).
  cbn [firstn length skipn]. rewrite app_nil_r. eexists. reflexivity.
Qed.
Lemma buf_room : forall b n c g buf, (length buf <= LINE_CAPACITY)%nat ->
  (length buf + length b <= n \/ length buf + length b < LINE_CAPACITY)%nat ->
  exists n' g' buf', buf_write_all b (roomy n c g buf) = (None, roomy n' c g' buf') /\
    g' ++ buf' = g ++ buf ++ b /\ (length g' + n' = length g + n)%nat /\ (length buf' <= LINE_CAPACITY)%nat /\
    (length buf + length b <= n -> length buf' <= n')%nat.
Proof.
  intros b n c g buf C H. unfold buf_write_all. cbn [roomy lw_buf].
  destruct (Nat.ltb_spec (length b) (LINE_CAPACITY - length buf)) as [L|L].
  - exists n, g, (buf ++ b). split; [reflexivity|]. rewrite app_length. repeat split; try lia; auto.
  - assert (H' : (length buf + length b <= n)%nat) by lia.
    destruct (Nat.ltb_spec (LINE_CAPACITY - length buf) (length b)) as [L'|L'].
    + change (mkLw buf _) with (roomy n c g buf). rewrite flush_room by lia.
      destruct (Nat.leb_spec LINE_CAPACITY (length b)) as [M|M].
      * cbn [roomy lw_raw]. rewrite write_all_room. rewrite (proj2 (Nat.leb_le _ _)) by lia. rewrite firstn_all2 by lia.
        exists (n - length buf - length b)%nat, ((g ++ buf) ++ b), []. split; [reflexivity|].
        rewrite !app_length. cbn [length]. split; [rewrite app_nil_r, app_assoc; reflexivity|]. repeat split; lia.
      * exists (n - length buf)%nat, (g ++ buf), b. split; [reflexivity|]. rewrite app_length.
        split; [symmetry; apply app_assoc|]. repeat split; lia.
    + destruct (Nat.leb_spec LINE_CAPACITY (length b)) as [M|M].
      * assert (B : buf = []). { destruct buf as [|x l]; [reflexivity|]. cbn [length] in *. lia. }
        subst buf. cbn [roomy lw_raw lw_buf]. rewrite write_all_room. cbn [length] in *. rewrite (proj2 (Nat.leb_le _ _)) by lia. rewrite firstn_all2 by lia.
        exists (n - length b)%nat, (g ++ b), []. split; [reflexivity|].
        rewrite !app_length. cbn [length app]. split; [rewrite app_nil_r; reflexivity|]. repeat split; lia.
      * exists n, g, (buf ++ b). split; [reflexivity|]. rewrite app_length. repeat split; try lia; auto.
Qed.
Lemma room_stays : forall (lines rest last : list N) (g q r : list N), lines_and_rest (g ++ q ++ r) lines last -> (length g <= length lines)%nat ->
  ~ In 10 q -> (length g + length q <= length lines)%nat \/ (g = lines /\ exists r', last = q ++ r').
Proof.
  intros lines _ last g q r (E & NL & H) L NQ.
  destruct (Nat.le_gt_cases (length g + length q) (length lines)) as [X|X]; [left; exact X|]. right.
  destruct (Nat.eq_dec (length g) (length lines)) as [Y|Y].
  - apply (f_equal (firstn (length lines))) in E as E1.
    rewrite <- Y in E1 at 1. rewrite firstn_app, firstn_all, Nat.sub_diag, firstn_O, app_nil_r in E1.
    rewrite firstn_app, firstn_all, Nat.sub_diag, firstn_O, app_nil_r in E1. subst g. split; [reflexivity|].
    apply app_inv_head in E. exists r. symmetry. exact E.
  - exfalso. apply NQ. destruct H as [->|(l' & ->)]; [cbn [length] in *; lia|].
    rewrite app_length in *. cbn [length] in *.
    assert (Q : nth_error (g ++ q ++ r) (length l') = Some 10).
    { rewrite E, <- app_assoc, nth_error_app2 by lia. rewrite Nat.sub_diag. reflexivity. }
    rewrite nth_error_app2 in Q by lia. rewrite nth_error_app1 in Q by lia. apply nth_error_In in Q. exact Q.
Qed.
Lemma line_room : forall b n c g buf rest lines last, (length buf <= LINE_CAPACITY)%nat -> ~ In 10 buf ->
  (length last < LINE_CAPACITY)%nat -> lines_and_rest (g ++ buf ++ b ++ rest) lines last -> (length g + n = length lines)%nat ->
  exists n' g' buf', line_write_all b (roomy n c g buf) = (None, roomy n' c g' buf') /\
    g' ++ buf' = g ++ buf ++ b /\ (length g' + n' = length lines)%nat /\ (length buf' <= LINE_CAPACITY)%nat /\ ~ In 10 buf'.
Proof.
  intros b n c g buf rest lines last C NI LL LR R.
  assert (TAIL : forall b n g buf rest, (length buf <= LINE_CAPACITY)%nat -> ~ In 10 (buf ++ b) ->
    lines_and_rest (g ++ buf ++ b ++ rest) lines last -> (length g + n = length lines)%nat ->
    exists n' g' buf', buf_write_all b (roomy n c g buf) = (None, roomy n' c g' buf') /\
    g' ++ buf' = g ++ buf ++ b /\ (length g' + n' = length lines)%nat /\ (length buf' <= LINE_CAPACITY)%nat /\ ~ In 10 buf').
  { clear - LL. intros b n g buf rest C NI LR R.
    assert (LR' := LR). rewrite (app_assoc buf b rest) in LR'.
    destruct (room_stays lines rest last g (buf ++ b) rest LR' ltac:(lia) NI) as [X|(X & r' & Y)].
    - rewrite app_length in X. destruct (buf_room b n c g buf C ltac:(left; lia)) as (n' & g' & buf' & E & T & Q & C' & _).
      exists n', g', buf'. split; [exact E|]. split; [exact T|]. split; [lia|]. split; [exact C'|].
      pose proof (buf_stepped b (roomy n c g buf) None (roomy n' c g' buf') C E) as (St & _). apply (suffix_in _ _ _ St). exact NI.
    - subst g. assert (Z : (length buf + length b < LINE_CAPACITY)%nat).
      { rewrite Y, !app_length in LL. lia. }
      destruct (buf_room b n c lines buf C ltac:(right; lia)) as (n' & g' & buf' & E & T & Q & C' & _).
      exists n', g', buf'. split; [exact E|]. split; [exact T|]. split; [lia|]. split; [exact C'|].
      pose proof (buf_stepped b (roomy n c lines buf) None (roomy n' c g' buf') C E) as (St & _). apply (suffix_in _ _ _ St). exact NI. }
  unfold line_write_all. pose proof (split_spec b) as SP. destruct (split_lines b) as [[l t]|].
  - destruct SP as ((EB & NT & H) & NL). destruct H as [->|(l' & El)]; [contradiction|].
    assert (X : (length g + length buf + length l <= length lines)%nat).
    { destruct (Nat.le_gt_cases (length g + length buf + length l) (length lines)) as [X|X]; [exact X|]. exfalso.
      destruct LR as (E & N1 & _). apply N1.
      assert (Q : nth_error (lines ++ last) (length g + length buf + length l') = Some 10).
      { rewrite <- E, EB, El, !nth_error_app2 by lia.
        rewrite <- !app_assoc. rewrite nth_error_app2 by lia.
        replace (length g + length buf + length l' - length g - length buf - length l')%nat with 0%nat by lia. reflexivity. }
      rewrite nth_error_app2 in Q by (rewrite El, app_length in X; cbn [length] in X; lia).
      apply nth_error_In in Q. exact Q. }
    assert (K : exists n', (if is_nil (lw_buf (roomy n c g buf)) then let '(st, raw) := write_all l (lw_raw (roomy n c g buf)) in (st, mkLw (lw_buf (roomy n c g buf)) raw)
               else match buf_write_all l (roomy n c g buf) with (Some k, w) => (Some k, w) | (None, w) => flush_buf w end) = (None, roomy n' c (g ++ buf ++ l) []) /\
               (length (g ++ buf ++ l) + n' = length lines)%nat).
    { destruct buf as [|x y].
      - cbn [roomy lw_buf is_nil lw_raw]. rewrite write_all_room. cbn [length] in *. rewrite (proj2 (Nat.leb_le _ _)) by lia. rewrite firstn_all2 by lia.
        exists (n - length l)%nat. split; [reflexivity|]. cbn [app]. rewrite app_length. lia.
      - remember (x :: y) as buf eqn:Bf. cbn [roomy lw_buf]. replace (is_nil buf) with false by (subst buf; reflexivity).
        fold (roomy n c g buf).
        destruct (buf_room l n c g buf C ltac:(left; lia)) as (n' & g' & buf' & E & T & Q & C' & Fit).
        rewrite E. rewrite flush_room by (apply Fit; lia). rewrite T.
        exists (n' - length buf')%nat. split; [reflexivity|]. rewrite <- T, app_length. specialize (Fit ltac:(lia)). lia. }
    destruct K as (n' & -> & K).
    destruct (TAIL t n' (g ++ buf ++ l) [] rest) as (n2 & g2 & buf2 & E2 & T2 & Q2 & C2 & N2).
    + cbn. lia.
    + exact NT.
    + cbn [app]. rewrite EB in LR. rewrite <- !app_assoc in LR. rewrite <- !app_assoc. exact LR.
    + exact K.
    + exists n2, g2, buf2. split; [exact E2|]. split; [|auto]. rewrite T2, EB. cbn [app]. rewrite <- !app_assoc. reflexivity.
  - assert (L : (List.last (lw_buf (roomy n c g buf)) 0 =? NEWLINE) = false).
    { cbn [roomy lw_buf]. apply N.eqb_neq. intros H. apply NI. destruct buf as [|x y]; [discriminate H|].
      assert (Q : In (List.last (x :: y) 0) (x :: y)); [|rewrite H in Q; exact Q].
      rewrite (app_removelast_last 0 (l := x :: y)) at 2 by discriminate. apply in_or_app. right. left. reflexivity. }
    rewrite L. apply (TAIL b n g buf rest); try assumption. intros H. apply in_app_or in H. tauto.
Qed.
Lemma lines_room : forall pieces n c g buf lines last, (length buf <= LINE_CAPACITY)%nat -> ~ In 10 buf ->
  (length last < LINE_CAPACITY)%nat -> lines_and_rest (g ++ buf ++ concat pieces) lines last -> (length g + n = length lines)%nat ->
  line_writes pieces (roomy n c g buf) = (None, roomy 0 c lines last).
Proof.
  induction pieces as [|b pieces IH]; intros n c g buf lines last C NI LL LR R; cbn [line_writes concat] in *.
  - rewrite app_nil_r in LR. pose proof LR as LR2. rewrite <- (app_nil_r buf) in LR2.
    destruct (room_stays lines [] last g buf [] LR2 ltac:(lia) NI) as [X|(X & r' & Y)].
    + destruct LR as (E & N1 & _). pose proof (f_equal (@length N) E) as EL. rewrite !app_length in EL.
      assert (last = []) by (destruct last; [reflexivity|cbn [length] in *; lia]). subst last. rewrite app_nil_r in E.
      assert (LRx : lines_and_rest (g ++ buf ++ []) lines []) by exact LR2. destruct LRx as (_ & _ & [->|(l' & El)]).
      * destruct g; [|cbn in R; lia]. destruct buf; [|discriminate E]. cbn in R. replace n with 0%nat by lia. reflexivity.
      * destruct buf as [|x y]; [rewrite app_nil_r in E; subst g; replace n with 0%nat by lia; reflexivity|].
        exfalso. apply NI. rewrite El in E. destruct (@exists_last _ (x :: y)) as (b' & z & Z); [discriminate|]. rewrite Z in *.
        rewrite app_assoc in E. apply app_inj_tail in E. destruct E as (_ & ->). apply in_or_app. right. left. reflexivity.
    + subst g. destruct LR as (E & _). apply app_inv_head in E. subst buf. replace n with 0%nat by lia. reflexivity.
  - destruct (line_room b n c g buf (concat pieces) lines last C NI LL LR R) as (n' & g' & buf' & -> & T & Q & C' & N').
    apply IH; try assumption. rewrite app_assoc, T, <- !app_assoc. exact LR.
Qed.
