(* C77: writes that fail, are cut short or are interrupted *)
From Verif Require Import Base S_Packet M_Reader M_Packet M_Group M_Merge S_Merge M_Frame M_ReedSolomon M_Pipeline M_Cli S_Cli M_Main S_Main
  M_Write S_Write L_Write P_CliFilter P_Main P_Main2.
Open Scope nat_scope.

(* The model of std's write_all is its loop over write *)
Fixpoint write_loop (fuel : nat) (buf : list N) (w : writer) : option (option iokind * writer) :=
  match fuel with
  | O => None
  | S fuel =>
      match buf with
      | [] => Some (None, w)
      | _ :: _ =>
          match write buf w with
          | (inl O, w) => Some (Some WRITE_ZERO, w)
          | (inl n, w) => write_loop fuel (skipn n buf) w
          | (inr Interrupted, w) => write_loop fuel buf w
          | (inr k, w) => Some (Some k, w)
          end
      end
  end.
Lemma write_all_loop : forall es buf f g fuel, length es + 2 <= fuel ->
  write_loop fuel buf (mkWriter es f g) = Some (write_all buf (mkWriter es f g)).
Proof.
  unfold write_all. cbn [w_evs w_fin w_got].
  induction es as [|e es IH]; intros buf f g fuel HF; (destruct fuel as [|fuel]; [cbn in HF; lia|]); destruct buf as [|b buf]; cbn [length] in HF.
  - cbn. rewrite app_nil_r. reflexivity.
  - cbn [write_loop write w_evs w_fin w_got write_all_evs]. destruct f; [|rewrite app_nil_r; reflexivity].
    cbn [length]. change (S (length buf)) with (length (b :: buf)). rewrite skipn_all. destruct fuel; [lia|]. reflexivity.
  - cbn [write_loop write_all_evs]. rewrite app_nil_r. reflexivity.
  - cbn [write_loop write w_evs w_fin w_got write_all_evs]. destruct e as [[|n]|k].
    + cbn [Nat.min firstn]. reflexivity.
    + destruct (Nat.ltb_spec (S n) (length (b :: buf))).
      * rewrite Nat.min_l by lia. rewrite IH by lia.
        destruct (write_all_evs (skipn (S n) (b :: buf)) es f) as [[g' s'] e']. rewrite <- app_assoc. reflexivity.
      * rewrite Nat.min_r by lia. cbn [length]. change (S (length buf)) with (length (b :: buf)). rewrite skipn_all.
        rewrite firstn_all2 by lia. destruct fuel; [lia|]. reflexivity.
    + destruct k; try (rewrite app_nil_r; reflexivity). apply IH. lia.
Qed.

(* One write_all: all bytes and no error, or the beginning of them and the first failure of the writer *)
Theorem C77_write_all : forall buf w st w', write_all buf w = (st, w') -> written_to w w' buf None Some st.
Proof.
  intros buf w st w' E. pose proof (chunks_spec [buf] w st w') as H. cbn [write_chunks concat] in H. rewrite app_nil_r in H. apply H.
  rewrite E. destruct st; reflexivity.
Qed.

Lemma written_map : forall R (d : R) (f : iokind -> R) w w' full st, written_to w w' full None Some st ->
  written_to w w' full d f (match st with Some k => f k | None => d end).
Proof. intros R d f w w' full st [H|l x rest k H1 H2 H3]; [apply written_all; exact H|eapply written_part; eassumption]. Qed.

(* Merger::merge on any writer. [out] is what it writes to one that accepts everything. *)
Theorem C77_merge : forall h fs m out w, merge h fs m = Val (Ok out) ->
  exists r w', merge_to h fs m w = Val (r, w') /\ written_to w w' out (Ok tt) (fun k => Err (Io k)) r.
Proof.
  intros h fs m out w E. destruct (merge_to_chunks h fs m _ out E (merge_written_ok _ _ _ _ E)) as (cs & <- & W).
  rewrite W. destruct (write_chunks cs w) as [st w'] eqn:C. eexists. eexists. split; [reflexivity|].
  apply (written_map (result unit) (Ok tt) (fun k => Err (Io k))), chunks_spec. exact C.
Qed.

(* A merge that fails for other reasons fails on every writer, and has written no more than it would have *)
Theorem C77_merge_error : forall h fs m e full w, merge h fs m = Val (Err e) -> merge_written h fs m = Val full ->
  exists e' w', merge_to h fs m w = Val (Err e', w') /\ written_to w w' full e Io e'.
Proof.
  intros h fs m e full w E F. destruct (merge_to_chunks h fs m _ full E F) as (cs & <- & W).
  rewrite W. destruct (write_chunks cs w) as [st w'] eqn:C. exists (match st with Some k => Io k | None => e end), w'.
  split; [destruct st; reflexivity|]. apply (written_map error e Io), chunks_spec. exact C.
Qed.

Lemma written_output : forall fs o full x0 evs fin st w', written_to (mkWriter evs fin []) w' full None Some st ->
  output_after fs o full x0 evs fin (match st with Some _ => Failure | None => x0 end) (aset o (w_got w') (aset o [] fs)).
Proof.
  intros fs o full x0 evs fin st w' [H|l x rest k H1 H2 H3]; cbn [w_got w_evs w_fin app] in *.
  - apply output_all. rewrite H. apply only_written_aset2.
  - eapply output_part; [exact H1| |exact H3]. rewrite H2. apply only_written_aset2.
Qed.
Lemma output_base : forall fs fs0 o full x0 evs fin x fs', (forall q, q <> o -> aget q fs = aget q fs0) ->
  output_after fs o full x0 evs fin x fs' -> output_after fs0 o full x0 evs fin x fs'.
Proof.
  intros fs fs0 o full x0 evs fin x fs' S H. assert (T : forall l fs'', only_written fs o l fs'' -> only_written fs0 o l fs'').
  { intros l fs'' (A & B). split; [exact A|]. intros q Q. rewrite (B q Q). apply S. exact Q. }
  destruct H; [apply output_all; auto|eapply output_part; eauto].
Qed.

Lemma refuse : forall (x0 : exit) (fs0 fs1 fs : fsys) o (r : outcome (exit * fsys)), fs1 = fs \/ only_written fs o [] fs1 -> r = Val (Failure, fs1) ->
  Val (Failure, fs1) = Val (x0, fs0) -> x0 = Failure /\ (fs0 = fs \/ only_written fs o [] fs0) /\ r = Val (Failure, fs0).
Proof. intros x0 fs0 fs1 fs o r H R E. injection E as <- <-. auto. Qed.
Ltac refused := let E := fresh in intro E; left; refine (refuse _ _ _ _ _ _ _ eq_refl E); auto using only_written_aset.
Lemma aset_aset : forall V k (a b : V) (m : amap V), aset k a (aset k b m) = aset k a m.
Proof.
  intros V k a b m. induction m as [|[k' v] m IH]; cbn [aset]; [rewrite N.eqb_refl; reflexivity|].
  destruct (N.eqb k k') eqn:E; cbn [aset]; rewrite ?N.eqb_refl, ?E; [reflexivity|f_equal; exact IH].
Qed.
(* The merge command. It leaves every other file as it was; its output holds what it would hold if all writes succeeded
   or a beginning of that, and then it fails. It touches the output only when it would anyway. *)
Theorem C77_merge_command : forall h creatable evs fin fs a x0 fs0, merge_command h creatable fs a = Val (x0, fs0) ->
  (x0 = Failure /\ (fs0 = fs \/ only_written fs (ma_output a) [] fs0) /\ merge_command_to h creatable evs fin fs a = Val (Failure, fs0)) \/
  exists full x fs', aget (ma_output a) fs0 = Some full /\
    merge_command_to h creatable evs fin fs a = Val (x, fs') /\ output_after fs (ma_output a) full x0 evs fin x fs'.
Proof.
  intros h creatable evs fin fs a x0 fs0. unfold merge_command, merge_command_to.
  destruct (negb (ma_clobber a) && exists_file fs (ma_output a)); [refused|].
  match goal with |- context[match ?o with Some _ => _ | None => _ end] => destruct o as [order|] end; [|refused].
  destruct (negb (creatable (ma_output a))); [refused|]. destruct (is_nil (ma_inputs a)); [refused|].
  set (fs1 := aset (ma_output a) [] fs). set (m := merger_of_args a order). set (rd := fun p => aget p fs1).
  destruct (merge h rd m) as [r|] eqn:R; cbn [obind]; [|discriminate].
  destruct (merge_written h rd m) as [w|] eqn:W; cbn [obind]; [|discriminate]. intro E. injection E as <- <-. right.
  destruct (merge_to_chunks h rd m r w R W) as (cs & <- & T). rewrite T. destruct (write_chunks cs (mkWriter evs fin [])) as [st w'] eqn:C.
  cbn [obind]. exists (concat cs). eexists. eexists. split; [apply (proj1 (only_written_aset _ _ _))|]. split; [reflexivity|].
  apply chunks_spec in C. apply (written_output fs (ma_output a) _ (match r with Ok _ => Success | Err _ => Failure end)) in C.
  destruct st; [|destruct r]; exact C.
Qed.

(* The filter command, likewise *)
Theorem C77_filter_command : forall creatable evs fin fs a x0 fs0, filter_command creatable fs a = Val (x0, fs0) ->
  (x0 = Failure /\ (fs0 = fs \/ only_written fs (fa_output a) [] fs0) /\ filter_command_to creatable evs fin fs a = Val (Failure, fs0)) \/
  exists full x fs', aget (fa_output a) fs0 = Some full /\
    filter_command_to creatable evs fin fs a = Val (x, fs') /\ output_after fs (fa_output a) full x0 evs fin x fs'.
Proof.
  intros creatable evs fin fs a x0 fs0. unfold filter_command, filter_command_to, filter_main.
  destruct (negb (fa_clobber a) && exists_file fs (fa_output a)); [refused|]. destruct (aget (fa_input a) fs) as [bs|]; [|refused].
  destruct (negb (creatable (fa_output a))); [refused|].
  destruct (parse_number_ranges (fa_include a)) as [i|]; [|cbn [obind]; refused].
  destruct (parse_number_ranges (fa_exclude a)) as [e|]; [|cbn [obind]; refused].
  destruct (is_nil (to_u16s i) && is_nil (to_u16s e) && is_none (fa_before a) && is_none (fa_after a)); [cbn [obind]; refused|].
  match goal with |- context[match aget (fa_input a) ?f with _ => _ end] => set (it := match aget (fa_input a) f with Some _ => _ | None => _ end) end.
  destruct it as [items|]; cbn [obind]; [|discriminate].
  destruct (filter_cmd items (to_u16s i) (to_u16s e) (fa_before a) (fa_after a)) as [r|] eqn:F; cbn [obind]; [|discriminate].
  apply filter_to_chunks in F. right. destruct r as [full|].
  - destruct F as (cs & <- & T). rewrite T. injection H as <- <-. destruct (write_chunks cs (mkWriter evs fin [])) as [st w'] eqn:C.
    cbn [obind]. exists (concat cs). eexists. eexists. split; [apply (proj1 (only_written_aset _ _ _))|]. split; [reflexivity|].
    apply chunks_spec in C. apply (written_output fs (fa_output a) _ Success) in C. destruct st; exact C.
  - rewrite F. cbn [obind w_got]. injection H as <- <-. exists []. eexists. eexists. split; [apply (proj1 (only_written_aset _ _ _))|].
    split; [reflexivity|]. apply output_all. apply only_written_aset2.
Qed.

(* The framing command with an output file, likewise; when a write fails no summary is reported *)
Theorem C77_framing_command : forall ovf k nthreads creatable evs fin fs a o fs0 s0, fr_output a = Some o ->
  framing_command ovf k nthreads creatable fs a Success fs0 (Some s0) ->
  exists full x fs' s, aget o fs0 = Some full /\
    framing_command_to ovf k nthreads evs fin fs a x fs' s /\ output_after fs o full Success evs fin x fs' /\
    s = match x with Success => Some s0 | Failure => None end.
Proof.
  intros ovf k nthreads creatable evs fin fs a o fs0 s0 O H. inversion H as [|len p i e bs frames all rows out H1 H2 H3|
    len p i e bs frames all rows out o' H1 H2 H3 H4 H5 H6 H7|]; [congruence|]. assert (o' = o) by congruence. subst o'.
  apply frame_cmd_chunks in H7. destruct H7 as (cs & <- & T). specialize (T (mkWriter evs fin [])).
  destruct (write_chunks cs (mkWriter evs fin [])) as [st w'] eqn:C. apply chunks_spec in C.
  pose proof (framing_to ovf k nthreads evs fin fs a len p i e bs frames _ _ o H1 H2 H3 H5 H6 T) as F.
  exists (concat cs). eexists. eexists. eexists. split; [apply (proj1 (only_written_aset _ _ _))|]. split; [exact F|]. split; [|destruct st; reflexivity].
  destruct C as [C|l x rest kk C1 C2 C3]; cbn [w_got w_evs w_fin app] in *.
  - apply output_all. rewrite C. apply only_written_aset.
  - eapply output_part; [exact C1| |exact C3]. rewrite C2. apply only_written_aset.
Qed.

(* Writers that only cut writes short or interrupt them make no difference *)
Lemma reliable_no_failure : forall es f k, reliable es f -> ~ first_failure es f k.
Proof.
  intros es f k (-> & R) F. remember Accepts as f eqn:Ef. revert R. induction F; intro R; try discriminate; inversion R as [|e l He Hl]; subst; auto.
  - destruct He as [He|(n & Hn & He)]; [discriminate|]. injection He as <-. lia.
  - destruct He as [He|(n & Hn & He)]; [congruence|discriminate].
Qed.
Theorem C77_short_writes : forall evs fin, reliable evs fin ->
  (forall h fs m out g, merge h fs m = Val (Ok out) ->
     exists w', merge_to h fs m (mkWriter evs fin g) = Val (Ok tt, w') /\ w_got w' = g ++ out) /\
  (forall h creatable fs a x fs0, merge_command h creatable fs a = Val (x, fs0) ->
     merge_command_to h creatable evs fin fs a = Val (x, fs0)) /\
  (forall creatable fs a x fs0, filter_command creatable fs a = Val (x, fs0) ->
     filter_command_to creatable evs fin fs a = Val (x, fs0)) /\
  (forall ovf k nthreads creatable fs a o fs0 s, fr_output a = Some o ->
     framing_command ovf k nthreads creatable fs a Success fs0 (Some s) ->
     framing_command_to ovf k nthreads evs fin fs a Success fs0 (Some s)).
Proof.
  intros evs fin R. assert (W : forall cs g st w', write_chunks cs (mkWriter evs fin g) = (st, w') -> st = None /\ w_got w' = g ++ concat cs).
  { intros cs g st w' C. apply chunks_spec in C. destruct C as [C|l x rest k C1 C2 C3]; [auto|]. cbn in C3. apply reliable_no_failure in C3; [contradiction|exact R]. }
  split; [|split; [|split]].
  - intros h fs m out g E. destruct (C77_merge h fs m out (mkWriter evs fin g) E) as (r & w' & M & C). destruct C as [C|l x rest k C1 C2 C3]; [eauto|].
    apply reliable_no_failure in C3; [contradiction|exact R].
  - intros h creatable fs a x fs0. unfold merge_command, merge_command_to.
    destruct (negb (ma_clobber a) && exists_file fs (ma_output a)); [auto|].
    match goal with |- context[match ?o with Some _ => _ | None => _ end] => destruct o as [order|] end; [|auto].
    destruct (negb (creatable (ma_output a))); [auto|]. destruct (is_nil (ma_inputs a)); [auto|].
    set (fs1 := aset (ma_output a) [] fs). set (m := merger_of_args a order). set (rd := fun p => aget p fs1).
    destruct (merge h rd m) as [r|] eqn:E; cbn [obind]; [|discriminate].
    destruct (merge_written h rd m) as [w|] eqn:Ew; cbn [obind]; [|discriminate]. intro Q. injection Q as <- <-.
    destruct (merge_to_chunks h rd m r w E Ew) as (cs & <- & T). rewrite T. destruct (write_chunks cs (mkWriter evs fin [])) as [st w'] eqn:C.
    destruct (W _ _ _ _ C) as (-> & G). cbn [obind app]. rewrite G. destruct r; reflexivity.
  - intros creatable fs a x fs0. unfold filter_command, filter_command_to, filter_main.
    destruct (negb (fa_clobber a) && exists_file fs (fa_output a)); [auto|]. destruct (aget (fa_input a) fs) as [bs|]; [|auto].
    destruct (negb (creatable (fa_output a))); [auto|].
    destruct (parse_number_ranges (fa_include a)) as [i|]; [|cbn [obind]; auto].
    destruct (parse_number_ranges (fa_exclude a)) as [e|]; [|cbn [obind]; auto].
    destruct (is_nil (to_u16s i) && is_nil (to_u16s e) && is_none (fa_before a) && is_none (fa_after a)); [cbn [obind]; auto|].
    match goal with |- context[match aget (fa_input a) ?f with _ => _ end] => set (it := match aget (fa_input a) f with Some _ => _ | None => _ end) end.
    destruct it as [items|]; cbn [obind]; [|discriminate].
    destruct (filter_cmd items (to_u16s i) (to_u16s e) (fa_before a) (fa_after a)) as [r|] eqn:F; cbn [obind]; [|discriminate].
    apply filter_to_chunks in F. intro Q. destruct r as [full|].
    + destruct F as (cs & <- & T). rewrite T. injection Q as <- <-. destruct (write_chunks cs (mkWriter evs fin [])) as [st w'] eqn:C.
      destruct (W _ _ _ _ C) as (-> & G). cbn [obind app]. rewrite G. reflexivity.
    + rewrite F. cbn [obind w_got]. injection Q as <- <-. rewrite aset_aset. reflexivity.
  - intros ovf k nthreads creatable fs a o fs0 s O H.
    destruct (C77_framing_command ovf k nthreads creatable evs fin fs a o fs0 s O H) as (full & x & fs' & s' & A & F & OA & Es).
    inversion H as [|len p i e bs frames all rows out H1 H2 H3|
      len p i e bs frames all rows out o' H1 H2 H3 H4 H5 H6 H7|]; [congruence|]. assert (o' = o) by congruence. subst o'.
    apply frame_cmd_chunks in H7. destruct H7 as (cs & <- & T). specialize (T (mkWriter evs fin [])).
    destruct (write_chunks cs (mkWriter evs fin [])) as [st w'] eqn:C. destruct (W _ _ _ _ C) as (-> & G). cbn [app] in G. rewrite <- G.
    exact (framing_to ovf k nthreads evs fin fs a len p i e bs frames _ _ o H1 H2 H3 H5 H6 T).
Qed.

(* A device with room for n bytes: the first n bytes are there, and success is reported iff that is all *)
Theorem C77_device_full : forall n c,
  (forall h fs m out g, merge h fs m = Val (Ok out) -> exists w',
     merge_to h fs m (mkWriter (room_evs n) (Refuses c) g) =
       Val (if length out <=? n then Ok tt else Err (Io (OtherIo c)), w') /\ w_got w' = g ++ firstn n out) /\
  (forall h creatable fs a fs0 out, merge_command h creatable fs a = Val (Success, fs0) -> aget (ma_output a) fs0 = Some out ->
     exists fs', merge_command_to h creatable (room_evs n) (Refuses c) fs a =
         Val (if length out <=? n then Success else Failure, fs') /\ only_written fs (ma_output a) (firstn n out) fs') /\
  (forall creatable fs a fs0 out, filter_command creatable fs a = Val (Success, fs0) -> aget (fa_output a) fs0 = Some out ->
     exists fs', filter_command_to creatable (room_evs n) (Refuses c) fs a =
         Val (if length out <=? n then Success else Failure, fs') /\ only_written fs (fa_output a) (firstn n out) fs') /\
  (forall ovf k nthreads creatable fs a o fs0 s out, fr_output a = Some o ->
     framing_command ovf k nthreads creatable fs a Success fs0 (Some s) -> aget o fs0 = Some out ->
     exists fs', framing_command_to ovf k nthreads (room_evs n) (Refuses c) fs a
         (if length out <=? n then Success else Failure) fs' (if length out <=? n then Some s else None) /\
       only_written fs o (firstn n out) fs').
Proof.
  intros n c. split; [|split; [|split]].
  - intros h fs m out g E. destruct (merge_to_chunks h fs m _ out E (merge_written_ok _ _ _ _ E)) as (cs & <- & T). rewrite T.
    destruct (chunks_room cs n c g) as (es & ->). exists (mkWriter es (Refuses c) (g ++ firstn n (concat cs))). split; [|reflexivity]. destruct (length (concat cs) <=? n); reflexivity.
  - intros h creatable fs a fs0 out. unfold merge_command, merge_command_to.
    destruct (negb (ma_clobber a) && exists_file fs (ma_output a)); [discriminate|].
    match goal with |- context[match ?o with Some _ => _ | None => _ end] => destruct o as [order|] end; [|discriminate].
    destruct (negb (creatable (ma_output a))); [discriminate|]. destruct (is_nil (ma_inputs a)); [discriminate|].
    set (fs1 := aset (ma_output a) [] fs). set (m := merger_of_args a order). set (rd := fun p => aget p fs1).
    destruct (merge h rd m) as [r|] eqn:E; cbn [obind]; [|discriminate].
    destruct (merge_written h rd m) as [w|] eqn:Ew; cbn [obind]; [|discriminate]. intro Q. injection Q as Qx <-.
    rewrite (proj1 (only_written_aset _ _ _)). intro Q. injection Q as <-.
    destruct (merge_to_chunks h rd m r w E Ew) as (cs & <- & T). rewrite T.
    destruct (chunks_room cs n c []) as (es & ->). cbn [obind w_got app]. eexists.
    split; [|apply only_written_aset2]. destruct (length (concat cs) <=? n); [|reflexivity]. destruct r; [reflexivity|discriminate].
  - intros creatable fs a fs0 out. unfold filter_command, filter_command_to, filter_main.
    destruct (negb (fa_clobber a) && exists_file fs (fa_output a)); [discriminate|]. destruct (aget (fa_input a) fs) as [bs|]; [|discriminate].
    destruct (negb (creatable (fa_output a))); [discriminate|].
    destruct (parse_number_ranges (fa_include a)) as [i|]; [|discriminate].
    destruct (parse_number_ranges (fa_exclude a)) as [e|]; [|discriminate].
    destruct (is_nil (to_u16s i) && is_nil (to_u16s e) && is_none (fa_before a) && is_none (fa_after a)); [discriminate|].
    match goal with |- context[match aget (fa_input a) ?f with _ => _ end] => set (it := match aget (fa_input a) f with Some _ => _ | None => _ end) end.
    destruct it as [items|]; cbn [obind]; [|discriminate].
    destruct (filter_cmd items (to_u16s i) (to_u16s e) (fa_before a) (fa_after a)) as [r|] eqn:F; cbn [obind]; [|discriminate].
    apply filter_to_chunks in F. destruct r as [full|]; [|discriminate]. intro Q. injection Q as <-.
    rewrite (proj1 (only_written_aset _ _ _)). intro Q. injection Q as <-. destruct F as (cs & <- & T). rewrite T.
    destruct (chunks_room cs n c []) as (es & ->). cbn [obind w_got app]. eexists.
    split; [|apply only_written_aset2]. destruct (length (concat cs) <=? n); reflexivity.
  - intros ovf k nthreads creatable fs a o fs0 s out O H A.
    inversion H as [|len p i e bs frames all rows out' H1 H2 H3|
      len p i e bs frames all rows out' o' H1 H2 H3 H4 H5 H6 H7|]; [congruence|]. assert (o' = o) by congruence. subst o'.
    assert (fs0 = aset o out' fs) by congruence. subst fs0. rewrite (proj1 (only_written_aset _ _ _)) in A. injection A as ->.
    apply frame_cmd_chunks in H7. destruct H7 as (cs & Ecs & T). subst out.
    destruct (chunks_room cs n c []) as (es & C). specialize (T (mkWriter (room_evs n) (Refuses c) [])). rewrite C in T.
    pose proof (framing_to ovf k nthreads _ _ fs a len p i e bs frames _ _ o H1 H2 H3 H5 H6 T) as F. cbn [w_got app] in F.
    eexists. split; [|apply only_written_aset]. destruct (length (concat cs) <=? n); exact F.
Qed.

(* Crash points: what a run leaves when the device (or the process) is stopped after any number of writes is the beginning
   of what the same run would have left *)
Theorem C77_stopped : forall es1 es2 fin c,
  (forall h fs m g r0 r1 r2 w1 w2, merge h fs m = Val r0 ->
     merge_to h fs m (mkWriter es1 (Refuses c) g) = Val (r1, w1) -> merge_to h fs m (mkWriter (es1 ++ es2) fin g) = Val (r2, w2) ->
     beginning (w_got w1) (w_got w2) /\ (r1 = Ok tt -> r2 = Ok tt /\ w_got w1 = w_got w2)) /\
  (forall items include exclude before after g r0 r1 r2 w1 w2, filter_cmd items include exclude before after = Val r0 ->
     filter_to items include exclude before after (mkWriter es1 (Refuses c) g) = Val (r1, w1) ->
     filter_to items include exclude before after (mkWriter (es1 ++ es2) fin g) = Val (r2, w2) ->
     beginning (w_got w1) (w_got w2) /\ (r1 = Filtered -> r2 = Filtered /\ w_got w1 = w_got w2)) /\
  (forall len keep_fill include exclude frames g s0 r1 r2 w1 w2, frame_cmd len keep_fill include exclude true frames = Val s0 ->
     frame_cmd_to len keep_fill include exclude frames (mkWriter es1 (Refuses c) g) = Val (r1, w1) ->
     frame_cmd_to len keep_fill include exclude frames (mkWriter (es1 ++ es2) fin g) = Val (r2, w2) ->
     beginning (w_got w1) (w_got w2) /\ (forall s, r1 = inl s -> r2 = inl s /\ w_got w1 = w_got w2)).
Proof.
  intros es1 es2 fin c. assert (B : forall l, beginning l l) by (intro l; exists []; symmetry; apply app_nil_r).
  split; [|split].
  - intros h fs m g r0 r1 r2 w1 w2 E. assert (exists full, merge_written h fs m = Val full) as (full & F).
    { unfold merge in E. unfold merge_written. destruct (open_readers fs (mg_paths m) []); [|eauto].
      destruct (build_index _ _ _); [cbn [obind]; eauto|discriminate]. }
    destruct (merge_to_chunks h fs m _ full E F) as (cs & <- & T). rewrite !T.
    destruct (write_chunks cs (mkWriter es1 (Refuses c) g)) as [st w] eqn:C. apply (chunks_cut cs es1 es2 fin c g) in C.
    intros Q1. injection Q1 as <- <-. destruct st as [k|].
    + destruct (write_chunks cs (mkWriter (es1 ++ es2) fin g)) as [st2 w2'] eqn:C2. intro Q2. injection Q2 as <- <-. split; [exact C|discriminate].
    + destruct C as (w2' & -> & G). intro Q2. injection Q2 as <- <-. rewrite G. auto.
  - intros items include exclude before after g r0 r1 r2 w1 w2 E. apply filter_to_chunks in E. destruct r0 as [full|].
    + destruct E as (cs & <- & T). rewrite !T.
      destruct (write_chunks cs (mkWriter es1 (Refuses c) g)) as [st w] eqn:C. apply (chunks_cut cs es1 es2 fin c g) in C.
      intros Q1. injection Q1 as <- <-. destruct st as [k|].
      * destruct (write_chunks cs (mkWriter (es1 ++ es2) fin g)) as [st2 w2'] eqn:C2. intro Q2. injection Q2 as <- <-. split; [exact C|discriminate].
      * destruct C as (w2' & -> & G). intro Q2. injection Q2 as <- <-. rewrite G. auto.
    + rewrite !E. intros Q1 Q2. injection Q1 as <- <-. injection Q2 as <- <-. cbn [w_got]. split; [apply B|discriminate].
  - intros len keep_fill include exclude frames g [[all rows] out] r1 r2 w1 w2 E. apply frame_cmd_chunks in E.
    destruct E as (cs & <- & T). rewrite !T.
    destruct (write_chunks cs (mkWriter es1 (Refuses c) g)) as [st w] eqn:C. apply (chunks_cut cs es1 es2 fin c g) in C.
    intros Q1. injection Q1 as <- <-. destruct st as [k|].
    + destruct (write_chunks cs (mkWriter (es1 ++ es2) fin g)) as [st2 w2'] eqn:C2. intro Q2. injection Q2 as <- <-. split; [exact C|discriminate].
    + destruct C as (w2' & -> & G). intro Q2. injection Q2 as <- <-. rewrite G. auto.
Qed.

(* The file 1 of C57_ex merged to 3 by a device that takes 3 bytes, is interrupted, takes 2 and fails; filtered to a
   device with room for 9 bytes, and to one whose writes are interrupted and cut to 4 bytes *)
Definition cx_evs : list wevent := [WAccept 3; WFail Interrupted; WAccept 2; WFail (OtherIo 28)].
Example C77_ex :
  merge_command_to in_order_h (fun _ => true) cx_evs Accepts mx_fs (mkMergeArgs None None None None [] false 3 [1]%N) =
    Val (Failure, mx_fs ++ [(3%N, firstn 5 (wire_bytes (fl_wire 7 1)))]) /\
  first_failure cx_evs Accepts (OtherIo 28) /\
  filter_command_to (fun _ => true) (room_evs 9) (Refuses 28) mx_fs (mkFilterArgs [[56]%N] [] None None false 3 1) =
    Val (Failure, mx_fs ++ [(3%N, firstn 9 (wire_bytes (fl_wire 8 2)))]) /\
  filter_command_to (fun _ => true) [WAccept 4; WFail Interrupted; WAccept 4] Accepts mx_fs (mkFilterArgs [[56]%N] [] None None false 3 1) =
    Val (Success, mx_fs ++ [(3%N, wire_bytes (fl_wire 8 2))]) /\
  reliable [WAccept 4; WFail Interrupted; WAccept 4] Accepts /\
  9 < length (wire_bytes (fl_wire 8 2)).
Proof.
  split; [vm_compute; reflexivity|]. split; [repeat (constructor; try lia); discriminate|]. split; [vm_compute; reflexivity|].
  split; [vm_compute; reflexivity|]. split; [|vm_compute; lia].
  split; [reflexivity|]. repeat apply Forall_cons; try apply Forall_nil; [right|left|right]; try reflexivity; (exists 4; split; [lia|reflexivity]).
Qed.

Print Assumptions C77_write_all.
Print Assumptions C77_merge.
Print Assumptions C77_merge_error.
Print Assumptions C77_merge_command.
Print Assumptions C77_filter_command.
Print Assumptions C77_framing_command.
Print Assumptions C77_short_writes.
Print Assumptions C77_device_full.
Print Assumptions C77_stopped.
