(* Lemmas on writers that fail *)
From Verif Require Import Base M_Reader M_Packet M_Group M_Merge M_Frame M_ReedSolomon M_Pipeline M_Cli M_Main M_Write S_Write.
Open Scope nat_scope.

(* writing pieces one after the other *)
Fixpoint write_chunks (cs : list (list N)) (w : writer) : option iokind * writer :=
  match cs with
  | [] => (None, w)
  | c :: cs => match write_all c w with (Some k, w) => (Some k, w) | (None, w) => write_chunks cs w end
  end.

(* the general fact about one write_all *)
Lemma write_all_evs_spec : forall es buf f got st es', write_all_evs buf es f = (got, st, es') ->
  match st with
  | None => got = buf /\ (forall k, first_failure es' f k -> first_failure es f k)
  | Some k => (exists x rest, buf = got ++ x :: rest) /\ first_failure es f k
  end.
Proof.
  induction es as [|e es IH]; intros buf f got st es' E; destruct buf as [|b buf].
  - cbn in E. injection E as <- <- <-. auto.
  - cbn in E. destruct f; injection E as <- <- <-; [auto|]. split; [exists b, buf; reflexivity|constructor].
  - cbn in E. destruct e as [[|n]|[]]; injection E as <- <- <-; auto.
  - cbn [write_all_evs] in E. destruct e as [[|n]|k0].
    + injection E as <- <- <-. split; [exists b, buf; reflexivity|apply ff_zero].
    + destruct (Nat.ltb_spec (S n) (length (b :: buf))).
      * destruct (write_all_evs (skipn (S n) (b :: buf)) es f) as [[g s] e'] eqn:R. injection E as <- <- <-. apply IH in R. destruct s.
        -- destruct R as ((x & rest & Q) & F). split; [|constructor; [lia|exact F]]. exists x, rest.
           change (b :: buf = (firstn (S n) (b :: buf) ++ g) ++ x :: rest). rewrite <- app_assoc.
           transitivity (firstn (S n) (b :: buf) ++ skipn (S n) (b :: buf)); [symmetry; apply firstn_skipn|f_equal; exact Q].
        -- destruct R as (-> & F). split; [apply (firstn_skipn (S n) (b :: buf))|]. intros k K. constructor; [lia|auto].
      * injection E as <- <- <-. split; [reflexivity|]. intros k K. constructor; [lia|exact K].
    + destruct k0; try (injection E as <- <- <-; split; [exists b, buf; reflexivity|apply ff_here; discriminate]).
      apply IH in E. destruct st.
      * destruct E as (Q & F). split; [exact Q|]. constructor. exact F.
      * destruct E as (-> & F). split; [reflexivity|]. intros k K. constructor. auto.
Qed.
Lemma write_all_spec : forall buf w st w', write_all buf w = (st, w') ->
  w_fin w' = w_fin w /\
  match st with
  | None => w_got w' = w_got w ++ buf /\
            (forall k, first_failure (w_evs w') (w_fin w') k -> first_failure (w_evs w) (w_fin w) k)
  | Some k => (exists l x rest, buf = l ++ x :: rest /\ w_got w' = w_got w ++ l) /\ first_failure (w_evs w) (w_fin w) k
  end.
Proof.
  intros buf w st w' E. unfold write_all in E. destruct (write_all_evs buf (w_evs w) (w_fin w)) as [[g s] e'] eqn:R.
  injection E as <- <-. cbn [w_fin w_got w_evs]. split; [reflexivity|]. apply write_all_evs_spec in R. destruct s.
  - destruct R as ((x & rest & Q) & F). split; [|exact F]. exists g, x, rest. auto.
  - destruct R as (-> & F). auto.
Qed.
Lemma chunks_spec : forall cs w st w', write_chunks cs w = (st, w') -> written_to w w' (concat cs) None Some st.
Proof.
  assert (G : forall cs w st w', write_chunks cs w = (st, w') -> w_fin w' = w_fin w /\ written_to w w' (concat cs) None Some st);
    [|intros; apply G; assumption].
  induction cs as [|c cs IH]; intros w st w' E; cbn [write_chunks concat] in *.
  - injection E as <- <-. split; [reflexivity|]. apply written_all. symmetry. apply app_nil_r.
  - destruct (write_all c w) as [[k|] w1] eqn:R.
    + injection E as <- <-. apply write_all_spec in R. destruct R as (Ff & (l & x & rest & -> & Q) & F). split; [exact Ff|].
      apply (written_part w w1 _ None Some l x (rest ++ concat cs) k); [|exact Q|exact F]. rewrite <- app_assoc. reflexivity.
    + apply write_all_spec in R. destruct R as (Ff & Q & F). destruct (IH _ _ _ E) as (Ff' & W). split; [congruence|].
      destruct W as [W|l x rest k W1 W2 W3].
      * apply written_all. rewrite W, Q, app_assoc. reflexivity.
      * apply (written_part w w' _ None Some (c ++ l) x rest k); [rewrite W1, app_assoc; reflexivity|rewrite W2, Q, app_assoc; reflexivity|auto].
Qed.

(* a device with room for n bytes *)
Lemma write_all_room : forall n buf c g, write_all buf (mkWriter (room_evs n) (Refuses c) g) =
  (if (length buf <=? n)%nat then None else Some (OtherIo c),
   mkWriter (room_evs (n - length buf)) (Refuses c) (g ++ firstn n buf)).
Proof.
  intros n buf c g. unfold write_all. cbn [w_evs w_fin w_got].
  assert (G : forall n buf, write_all_evs buf (room_evs n) (Refuses c) =
     (firstn n buf, if (length buf <=? n)%nat then None else Some (OtherIo c), room_evs (n - length buf))).
  { clear. induction n as [|n IH]; intros [|b buf]; try reflexivity.
    unfold room_evs. cbn [repeat write_all_evs]. fold (room_evs n). cbn [length]. destruct buf as [|b' buf].
    - cbn [length Nat.ltb Nat.leb firstn Nat.sub]. destruct n; reflexivity.
    - change (1 <? S (length (b' :: buf)))%nat with true. cbn iota. change (skipn 1 (b :: b' :: buf)) with (b' :: buf).
      rewrite IH. reflexivity. }
  rewrite G. destruct (length buf <=? n)%nat; reflexivity.
Qed.
Lemma chunks_room : forall cs n c g, exists es, write_chunks cs (mkWriter (room_evs n) (Refuses c) g) =
  (if (length (concat cs) <=? n)%nat then None else Some (OtherIo c), mkWriter es (Refuses c) (g ++ firstn n (concat cs))).
Proof.
  induction cs as [|b cs IH]; intros n c g; cbn [write_chunks concat].
  - exists (room_evs n). rewrite firstn_nil, app_nil_r. reflexivity.
  - rewrite write_all_room. destruct (Nat.leb_spec (length b) n).
    + destruct (IH (n - length b) c (g ++ firstn n b)) as (es & ->). exists es. rewrite app_length, firstn_app, <- app_assoc.
      f_equal. destruct (Nat.leb_spec (length (concat cs)) (n - length b)), (Nat.leb_spec (length b + length (concat cs)) n); try reflexivity; lia.
    + exists (room_evs (n - length b)). rewrite app_length, firstn_app. replace (n - length b) with 0 by lia. cbn [firstn]. rewrite app_nil_r.
      destruct (Nat.leb_spec (length b + length (concat cs)) n); [lia|reflexivity].
Qed.

(* a writer that is stopped *)
Lemma write_all_evs_cut : forall es1 es2 buf f c got st es', write_all_evs buf es1 (Refuses c) = (got, st, es') ->
  match st with
  | None => write_all_evs buf (es1 ++ es2) f = (got, None, es' ++ es2)
  | Some _ => beginning got (fst (fst (write_all_evs buf (es1 ++ es2) f)))
  end.
Proof.
  induction es1 as [|e es1 IH]; intros es2 buf f c got st es' E; destruct buf as [|b buf].
  - cbn in E. injection E as <- <- <-. destruct es2 as [|[]]; reflexivity.
  - cbn in E. injection E as <- <- <-. exists (fst (fst (write_all_evs (b :: buf) es2 f))). reflexivity.
  - cbn in E. destruct e as [[|n]|[]]; injection E as <- <- <-; reflexivity.
  - cbn [write_all_evs app] in *. destruct e as [[|n]|k0].
    + injection E as <- <- <-. exists []. reflexivity.
    + destruct (Nat.ltb_spec (S n) (length (b :: buf))).
      * destruct (write_all_evs (skipn (S n) (b :: buf)) es1 (Refuses c)) as [[g s] e'] eqn:R. injection E as <- <- <-.
        apply (IH es2 _ f) in R. destruct s.
        -- destruct (write_all_evs (skipn (S n) (b :: buf)) (es1 ++ es2) f) as [[g' s'] e'']. destruct R as (rest & R). cbn [fst] in *.
           exists rest. rewrite R, app_assoc. reflexivity.
        -- rewrite R. reflexivity.
      * injection E as <- <- <-. reflexivity.
    + destruct k0; try (injection E as <- <- <-; exists []; reflexivity). apply (IH es2 _ f) in E. exact E.
Qed.
Lemma beginning_app : forall g a b, beginning a b -> beginning (g ++ a) (g ++ b).
Proof. intros g a b (r & ->). exists r. rewrite app_assoc. reflexivity. Qed.
Lemma write_all_grows : forall buf w, beginning (w_got w) (w_got (snd (write_all buf w))).
Proof. intros. unfold write_all. destruct (write_all_evs buf (w_evs w) (w_fin w)) as [[g s] e]. exists g. reflexivity. Qed.
Lemma beginning_trans : forall a b c, beginning a b -> beginning b c -> beginning a c.
Proof. intros a b c (x & ->) (y & ->). exists (x ++ y). rewrite app_assoc. reflexivity. Qed.
Lemma chunks_grow : forall cs w, beginning (w_got w) (w_got (snd (write_chunks cs w))).
Proof.
  induction cs as [|c cs IH]; intro w; cbn [write_chunks]; [exists []; symmetry; apply app_nil_r|].
  pose proof (write_all_grows c w) as G. destruct (write_all c w) as [[k|] w1]; [exact G|]. cbn [snd] in G. eapply beginning_trans; [exact G|apply IH].
Qed.
Lemma chunks_cut : forall cs es1 es2 f c g st w1, write_chunks cs (mkWriter es1 (Refuses c) g) = (st, w1) ->
  match st with
  | None => exists w2, write_chunks cs (mkWriter (es1 ++ es2) f g) = (None, w2) /\ w_got w2 = w_got w1
  | Some _ => beginning (w_got w1) (w_got (snd (write_chunks cs (mkWriter (es1 ++ es2) f g))))
  end.
Proof.
  induction cs as [|b cs IH]; intros es1 es2 f c g st w1 E; cbn [write_chunks] in *.
  - injection E as <- <-. eexists. split; reflexivity.
  - unfold write_all in *. cbn [w_evs w_fin w_got] in *.
    destruct (write_all_evs b es1 (Refuses c)) as [[g1 [k|]] e1] eqn:R; apply (write_all_evs_cut es1 es2 b f) in R.
    + injection E as <- <-. cbn [w_got]. destruct (write_all_evs b (es1 ++ es2) f) as [[g2 s2] e2]. cbn [fst] in R.
      destruct s2 as [k2|]; [cbn [snd w_got]; apply beginning_app; exact R|].
      eapply beginning_trans; [apply (beginning_app g); exact R|]. apply (chunks_grow cs (mkWriter e2 f (g ++ g2))).
    + rewrite R. apply (IH _ es2 f) in E. exact E.
Qed.

(* the pieces that each function writes *)
Fixpoint group_chunks (readers : amap (list N)) (l : list ptr) : list (list N) :=
  match l with
  | [] => []
  | p :: rest =>
      match aget (pt_path p) readers with
      | None => []
      | Some bs => if (length (skipn (pt_offset p) bs) <? pt_size p)%nat then []
                   else firstn (pt_size p) (skipn (pt_offset p) bs) :: group_chunks readers rest
      end
  end.
Lemma group_chunks_written : forall readers l, concat (group_chunks readers l) = groups_written readers l.
Proof.
  intros readers l. induction l as [|p l IH]; cbn [group_chunks groups_written concat]; [reflexivity|].
  destruct (aget (pt_path p) readers) as [bs|]; [|reflexivity]. destruct (length (skipn (pt_offset p) bs) <? pt_size p); [reflexivity|].
  cbn [concat]. rewrite IH. reflexivity.
Qed.
Definition no_bytes (r : result (list N)) : result unit := match r with Ok _ => Ok tt | Err e => Err e end.
Lemma groups_to_chunks : forall readers l r w, write_groups readers l = Val r ->
  write_groups_to readers l w =
    let '(st, w') := write_chunks (group_chunks readers l) w in
    Val (match st with Some k => Err (Io k) | None => no_bytes r end, w').
Proof.
  intros readers l. induction l as [|p l IH]; intros r w E; cbn [write_groups write_groups_to group_chunks write_chunks] in *.
  - injection E as <-. reflexivity.
  - destruct (aget (pt_path p) readers) as [bs|]; [|discriminate].
    destruct (length (skipn (pt_offset p) bs) <? pt_size p); [injection E as <-; reflexivity|]. cbn [write_chunks].
    destruct (write_all _ w) as [[k|] w1]; [reflexivity|].
    unfold rbind in E. destruct (write_groups readers l) as [[o|e]|] eqn:R; [| |discriminate]; injection E as <-; rewrite (IH _ w1 eq_refl); reflexivity.
Qed.
Lemma merge_to_chunks : forall h fs m r full, merge h fs m = Val r -> merge_written h fs m = Val full ->
  exists cs, concat cs = full /\ forall w, merge_to h fs m w =
    let '(st, w') := write_chunks cs w in Val (match st with Some k => Err (Io k) | None => no_bytes r end, w').
Proof.
  intros h fs m r full. unfold merge, merge_written, merge_to. destruct (open_readers fs (mg_paths m) []) as [readers|e].
  - destruct (build_index m (ho_readers h readers) []) as [index|]; cbn [obind]; [|discriminate]. intros E F. injection F as <-.
    exists (group_chunks readers (sort_index (ho_index h index))). split; [apply group_chunks_written|]. intro w. apply groups_to_chunks. exact E.
  - intros E F. injection E as <-. injection F as <-. exists []. split; [reflexivity|]. intro w. reflexivity.
Qed.

Lemma filter_loop_chunks : forall include exclude before after ptrs w,
  filter_loop_to include exclude before after ptrs w =
  write_chunks (map fp_data (filter (filter_keep include exclude before after) ptrs)) w.
Proof.
  intros include exclude before after ptrs. induction ptrs as [|p ptrs IH]; intro w; cbn [filter_loop_to filter]; [reflexivity|].
  destruct (filter_keep include exclude before after p); [|apply IH]. cbn [map write_chunks].
  destruct (write_all (fp_data p) w) as [[k|] w1]; [reflexivity|apply IH].
Qed.
Lemma filter_to_chunks : forall items include exclude before after r, filter_cmd items include exclude before after = Val r ->
  match r with
  | None => forall w, filter_to items include exclude before after w = Val (NoFilters, w)
  | Some full => exists cs, concat cs = full /\ forall w, filter_to items include exclude before after w =
      let '(st, w') := write_chunks cs w in Val (match st with Some k => FilterWrite k | None => Filtered end, w')
  end.
Proof.
  intros items include exclude before after r. unfold filter_cmd, filter_to.
  destruct (is_nil include && is_nil exclude && is_none before && is_none after); [intro E; injection E as <-; reflexivity|].
  match goal with |- context[obind ?x _] => set (ptrs := x) end. destruct ptrs as [ptrs|]; cbn [obind]; [|discriminate].
  intro E. injection E as <-. eexists. split; [reflexivity|]. intro w. rewrite filter_loop_chunks. destruct (write_chunks _ w) as [[k|] w']; reflexivity.
Qed.

Lemma frame_loop_chunks : forall len kf inc exc frames s s', frame_loop len kf inc exc true frames s = Val s' ->
  exists cs, fc_out s' = fc_out s ++ concat cs /\ forall w,
    match write_chunks cs w with
    | (None, w') => frame_loop_to len kf inc exc frames (fc_all s) (fc_vcids s) w = Val (fc_all s', fc_vcids s', None, w')
    | (Some k, w') => exists all rows, frame_loop_to len kf inc exc frames (fc_all s) (fc_vcids s) w = Val (all, rows, Some k, w')
    end.
Proof.
  intros len kf inc exc frames. induction frames as [|f frames IH]; intros s s' E; cbn [frame_loop frame_loop_to] in *.
  - injection E as <-. exists []. cbn [concat write_chunks]. rewrite app_nil_r. auto.
  - destruct (frame_selected kf inc exc f); cbn [negb] in *; [|apply IH; exact E].
    destruct (frame_written f); cbn [negb orb] in *; [|apply (IH (mkFcmd _ _ _)) in E; exact E].
    destruct (slice (f_data f) 0 len) as [d|]; cbn [obind] in *; [|discriminate].
    apply IH in E. cbn [fc_all fc_vcids fc_out] in E. destruct E as (cs & O & W). exists (d :: cs). cbn [concat write_chunks]. split.
    + rewrite O, app_assoc. reflexivity.
    + intro w. destruct (write_all d w) as [[k|] w1]; [eexists; eexists; reflexivity|]. apply W.
Qed.
Lemma frame_cmd_chunks : forall len kf inc exc frames all rows out, frame_cmd len kf inc exc true frames = Val (all, rows, out) ->
  exists cs, concat cs = out /\ forall w, frame_cmd_to len kf inc exc frames w =
    let '(st, w') := write_chunks cs w in Val (match st with Some k => inr k | None => inl (all, rows) end, w').
Proof.
  intros len kf inc exc frames all rows out E. unfold frame_cmd in E.
  destruct (frame_loop len kf inc exc true frames (mkFcmd finfo0 [] [])) as [s|] eqn:L; [|discriminate]. cbn [obind] in E. injection E as <- <- <-.
  apply frame_loop_chunks in L. destruct L as (cs & O & W). exists cs. split; [symmetry; exact O|]. intro w. specialize (W w). unfold frame_cmd_to.
  cbn [fc_all fc_vcids] in W. destruct (write_chunks cs w) as [[k|] w'].
  - destruct W as (a & b & ->). reflexivity.
  - rewrite W. reflexivity.
Qed.
