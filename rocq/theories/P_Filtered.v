(* Property C07: what filter_map(Result::ok) over a decoder yields *)
From Verif Require Import Base M_Reader M_Packet M_Sync M_Pipeline L_Base L_Reader L_Packet P_Packet P_Sync S_Bits S_Packet.
Open Scope nat_scope.

(* the calls of next of filter_map(Result::ok) over [next], from the state s on: the items and the end, or the items and a panic *)
Inductive filtered {St A : Type} (next : St -> outcome (option (result A) * St)) : St -> list A -> bool -> Prop :=
| filtered_end : forall s fuel s', filter_ok_next next fuel s = Some (Val (None, s')) -> filtered next s [] true
| filtered_panic : forall s fuel, filter_ok_next next fuel s = Some Panic -> filtered next s [] false
| filtered_item : forall s fuel a s' l e, filter_ok_next next fuel s = Some (Val (Some a, s')) -> filtered next s' l e -> filtered next s (a :: l) e.

Lemma filter_more : forall St A (next : St -> outcome (option (result A) * St)) fuel s o, filter_ok_next next fuel s = Some o ->
  forall fuel', fuel <= fuel' -> filter_ok_next next fuel' s = Some o.
Proof.
  intros St A next. induction fuel as [|fuel IH]; intros s o E fuel' L; [discriminate|].
  destruct fuel' as [|fuel']; [lia|]. cbn [filter_ok_next] in *. destruct (next s) as [[[[a|e]|] s']|]; try exact E. apply IH; [exact E|lia].
Qed.
Lemma filter_same : forall St A (next : St -> outcome (option (result A) * St)) fuel fuel' s o o',
  filter_ok_next next fuel s = Some o -> filter_ok_next next fuel' s = Some o' -> o = o'.
Proof.
  intros St A next fuel fuel' s o o' E E'. destruct (Nat.le_ge_cases fuel fuel') as [L|L].
  - rewrite (filter_more _ _ _ _ _ _ E _ L) in E'. congruence.
  - rewrite (filter_more _ _ _ _ _ _ E' _ L) in E. congruence.
Qed.
Lemma filtered_det : forall St A (next : St -> outcome (option (result A) * St)) s l e, filtered next s l e -> forall l' e', filtered next s l' e' -> l = l' /\ e = e'.
Proof.
  induction 1 as [s f s1 E|s f E|s f a s1 l e E H IH]; intros l' e' H'; inversion H' as [? f' s1' E'|? f' E'|? f' a' s1' m e1 E' H1]; subst;
    assert (X := filter_same _ _ _ _ _ _ _ _ E E'); try discriminate; try (split; reflexivity).
  injection X as <- <-. destruct (IH _ _ H1) as [-> ->]. split; reflexivity.
Qed.
(* an error that is skipped changes nothing *)
Lemma filtered_skip : forall St A (next : St -> outcome (option (result A) * St)) s x s' l e, next s = Val (Some (Err x), s') -> filtered next s' l e -> filtered next s l e.
Proof.
  intros St A next s x s' l e E H. inversion H as [? f s1 F|? f F|? f a s1 m e1 F H1]; subst.
  - apply filtered_end with (fuel := S f) (s' := s1). cbn [filter_ok_next]. rewrite E. exact F.
  - apply filtered_panic with (fuel := S f). cbn [filter_ok_next]. rewrite E. exact F.
  - apply filtered_item with (fuel := S f) (s' := s1); [cbn [filter_ok_next]; rewrite E; exact F|exact H1].
Qed.
Lemma yields_filtered : forall St A (next : St -> outcome (option (result A) * St)) s items, yields next s items -> filtered next s (oks items) true.
Proof.
  induction 1 as [s s' E|s s' [a|x] items E Y IH]; cbn [oks].
  - apply filtered_end with (fuel := 1) (s' := s'). cbn [filter_ok_next]. rewrite E. reflexivity.
  - apply filtered_item with (fuel := 1) (s' := s'); [cbn [filter_ok_next]; rewrite E; reflexivity|exact IH].
  - eapply filtered_skip; eassumption.
Qed.
Lemma panics_filtered : forall St A (next : St -> outcome (option (result A) * St)) s items, panics_after next s items -> filtered next s (oks items) false.
Proof.
  induction 1 as [s E|s s' [a|x] items E Y IH]; cbn [oks].
  - apply filtered_panic with (fuel := 1). cbn [filter_ok_next]. rewrite E. reflexivity.
  - apply filtered_item with (fuel := 1) (s' := s'); [cbn [filter_ok_next]; rewrite E; reflexivity|exact IH].
  - eapply filtered_skip; eassumption.
Qed.
(* On a reader with finitely many events and then end of file, the packets that come are the Ok items of decode_packets, in order, and
   then the end, or a panic, just as decode_packets alone *)
Theorem C07_filtered_packets : forall s l e,
  Forall (fun t => match t with TByte b => (b < 256)%N | _ => True end) (transcript (evs (pd_reader s))) -> fin (pd_reader s) = AtEof ->
  (filtered pdec_next s l e <-> exists items, l = oks items /\ if e then yields pdec_next s items else panics_after pdec_next s items).
Proof.
  intros s l e Hok Hf. split.
  - intro H. destruct (pdec_ends s Hok Hf) as [[items Y]|[items Y]].
    + destruct (filtered_det _ _ _ _ _ _ H _ _ (yields_filtered _ _ _ _ _ Y)) as [-> ->]. exists items. split; [reflexivity|exact Y].
    + destruct (filtered_det _ _ _ _ _ _ H _ _ (panics_filtered _ _ _ _ _ Y)) as [-> ->]. exists items. split; [reflexivity|exact Y].
  - intros (items & -> & Y). destruct e; [apply yields_filtered|apply panics_filtered]; exact Y.
Qed.
Print Assumptions C07_filtered_packets.
(* the same of the blocks of synchronize, which never panics *)
Theorem C07_filtered_blocks : forall asm len r l e, asm <> [] -> fin r = AtEof ->
  (filtered biter_next (synchronize r asm len) l e <-> e = true /\ exists items, l = oks items /\ yields biter_next (synchronize r asm len) items).
Proof.
  intros asm len r l e NA Hf. destruct (C28_terminates asm len r NA Hf) as (items & Y & _). split.
  - intro H. destruct (filtered_det _ _ _ _ _ _ H _ _ (yields_filtered _ _ _ _ _ Y)) as [-> ->]. split; [reflexivity|]. exists items. split; [reflexivity|exact Y].
  - intros (-> & items' & -> & Y'). apply yields_filtered. exact Y'.
Qed.
Print Assumptions C07_filtered_blocks.

(* an interruption, a failed read, a packet, a packet cut short *)
Example C07_filtered_ex : filtered pdec_next (pdec_new (mkReader
    [EvData [0xd; 0x59; 0xd2]%N; EvFail (OtherIo 7); EvData [0xd; 0x59; 0xd2; 0xab; 0x0; 0x0; 9; 8]%N] AtEof))
  [mkPacket (mkHeader 0 0 true 1369 3 4779 0) [0xd; 0x59; 0xd2; 0xab; 0x0; 0x0; 9]%N 0] true.
Proof.
  apply C07_filtered_packets; [vm_compute; repeat constructor|reflexivity|].
  eexists. split; [|apply run_yields with (fuel := 9); vm_compute; reflexivity]. vm_compute. reflexivity.
Qed.
Example C07_filtered_blocks_ex : filtered biter_next (synchronize (reader_of (ASM ++ [1; 2; 3; 4] ++ ASM ++ [5])%N) ASM 4) [mkBlock 0 (mkLoc 5 0) [1; 2; 3; 4]%N; mkBlock 8 (mkLoc 13 0) [5; 0; 0; 0]%N] true.
Proof.
  apply C07_filtered_blocks; [discriminate|reflexivity|]. split; [reflexivity|].
  eexists. split; [|apply run_yields with (fuel := 9); vm_compute; reflexivity]. vm_compute. reflexivity.
Qed.
