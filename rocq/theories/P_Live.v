(* C79: inputs that fail, or panic the decoder, while they are read *)
From Verif Require Import Base S_Bits S_Packet M_Reader M_Packet M_Group S_Group M_Timecode L_Base L_Reader L_Packet L_Group M_Merge S_Merge L_Merge
  M_Cli S_Cli M_Main S_Main S_Write M_Live S_Live L_Live S_AnyFile P_CliFilter P_CliInfo P_CliDiff P_Main P_AnyFile.
Open Scope nat_scope.

(* ---- how inputs read ---- *)
Lemma failing_forever : forall c off, fails_forever pdec_next (mkPdec (mkReader [] (Failing c)) off).
Proof. intros c off. cofix CH. eapply fails_again; [reflexivity|exact CH]. Qed.
Lemma fails_tok : forall s c, pd_ok s -> transcript (evs (pd_reader s)) = [] -> fin (pd_reader s) = Failing c -> fails_forever pdec_next s.
Proof.
  cofix CH. intros s c OK T F. assert (E := pdec_ptok s OK). unfold ptok_next in E. cbn [ptok_of pk_toks pk_fin] in E. rewrite T, F in E. cbn [re_tok] in E.
  destruct (pdec_next s) as [[o s']|] eqn:N; cbn [omap_st] in E; [|discriminate]. unfold ptok_of in E. assert (EO : o = Some (Err (Io (OtherIo c)))) by congruence.
  assert (ET : transcript (evs (pd_reader s')) = []) by congruence. assert (EF : fin (pd_reader s') = Failing c) by congruence. subst o.
  eapply fails_again; [exact N|]. eapply CH; [eapply pd_ok_step; eassumption|exact ET|exact EF].
Qed.
Lemma pdec_step_len : forall s a s', pd_ok s -> pdec_next s = Val (Some a, s') ->
  fin (pd_reader s') = fin (pd_reader s) /\
  (length (transcript (evs (pd_reader s'))) < length (transcript (evs (pd_reader s))) \/
   (transcript (evs (pd_reader s)) = [] /\ exists c, fin (pd_reader s) = Failing c)).
Proof.
  intros s a s' OK E. assert (P := pdec_ptok s OK). rewrite E in P. cbn [omap_st] in P. symmetry in P. apply ptok_step_len in P. exact P.
Qed.
(* Every reader of bytes reads in one of the three ways, and it reads in one way only *)
Theorem C79_every_reader : forall s,
  Forall (fun t => match t with TByte b => (b < 256)%N | _ => True end) (transcript (evs (pd_reader s))) ->
  exists items h, reads pdec_next s items h.
Proof.
  intros s OK. remember (length (transcript (evs (pd_reader s)))) as n eqn:EN. assert (L : length (transcript (evs (pd_reader s))) <= n) by lia. clear EN.
  revert s OK L. induction n as [|n IH]; intros s OK L.
  - destruct (pdec_next s) as [[[a|] s']|] eqn:E.
    + destruct (pdec_step_len s a s' OK E) as [_ [X|[T [c F]]]]; [lia|]. exists [], Forever. apply reads_fail. eapply fails_tok; eassumption.
    + eexists _, _. eapply reads_end. exact E.
    + eexists _, _. apply reads_panic. exact E.
  - destruct (pdec_next s) as [[[a|] s']|] eqn:E.
    + destruct (pdec_step_len s a s' OK E) as [_ [X|[T [c F]]]].
      * destruct (IH s') as (items & h & R); [eapply pd_ok_step; eassumption|lia|]. eexists _, _. eapply reads_item; [exact E|exact R].
      * exists [], Forever. apply reads_fail. eapply fails_tok; eassumption.
    + eexists _, _. eapply reads_end. exact E.
    + eexists _, _. apply reads_panic. exact E.
Qed.
Print Assumptions C79_every_reader.


(* what is read in only one way *)
Lemma fails_no : forall S A (next : S -> outcome (option (result A) * S)) s, fails_forever next s ->
  forall items h, reads next s items h -> h = Forever /\ Forall (fun r => exists e, r = Err e) items.
Proof.
  intros S A next s F items h R. revert F. induction R as [s s' E|s E|s _|s s' a items h E R IH]; intro F.
  - destruct F as [s s2 e E2 _]. congruence.
  - destruct F as [s s2 e E2 _]. congruence.
  - split; [reflexivity|constructor].
  - destruct F as [s s2 e E2 F]. rewrite E in E2. injection E2 as -> <-. destruct (IH F) as [-> X]. split; [reflexivity|]. constructor; eauto.
Qed.
Lemma reads_one_way : forall S A (next : S -> outcome (option (result A) * S)) s items h items' h', reads next s items h -> reads next s items' h' ->
  h = h' /\ keep_ok items = keep_ok items' /\ (h <> Forever -> items = items').
Proof.
  intros S A next s items h items' h' R. revert items' h'.
  assert (KE : forall l : list (result A), Forall (fun r => exists e, r = Err e) l -> keep_ok l = []).
  { intros l H. induction H as [|x l [e ->] _ IH]; [reflexivity|exact IH]. }
  induction R as [s s' E|s E|s F|s s' a items h E R IH]; intros items' h' R'.
  - inversion R' as [? s2 E2|? E2|? F2|? s2 a2 l2 ? E2 R2]; subst; try congruence.
    + replace s2 with s' by congruence. auto.
    + destruct F2 as [? ? ? E2 _]. congruence.
  - inversion R' as [? s2 E2|? E2|? F2|? s2 a2 l2 ? E2 R2]; subst; try congruence.
    + auto.
    + destruct F2 as [? ? ? E2 _]. congruence.
  - destruct (fails_no _ _ _ _ F _ _ R') as [-> X]. split; [reflexivity|]. split; [symmetry; apply KE; exact X|congruence].
  - inversion R' as [? s2 E2|? E2|? F2|? s2 a2 l2 ? E2 R2]; subst; try congruence.
    + destruct (fails_no _ _ _ _ F2 (a :: items) h) as [-> X]; [econstructor; eassumption|]. split; [reflexivity|]. split; [apply KE; exact X|congruence].
    + rewrite E in E2. injection E2 as <- <-. destruct (IH _ _ R2) as (-> & K & X). split; [reflexivity|]. split; [|intro N; f_equal; auto].
      destruct a as [p|e]; cbn [keep_ok]; congruence.
Qed.
Theorem C79_one_way : forall s items h items' h', reads pdec_next s items h -> reads pdec_next s items' h' ->
  h = h' /\ keep_ok items = keep_ok items' /\ (h <> Forever -> items = items').
Proof. intros s. apply reads_one_way. Qed.
Print Assumptions C79_one_way.

(* once the end is reported, no token is left *)
Lemma reads_plain : forall s items, pd_ok s -> fin (pd_reader s) = AtEof ->
  (forall t, In t (transcript (evs (pd_reader s))) -> exists b, t = TByte b) ->
  yields pdec_next s items -> exists s', reads pdec_next s items (EndsIn s') /\ exists s2, pdec_next s' = Val (None, s2).
Proof.
  intros s items OK F T Y. induction Y as [s s' E|s s' a items E Y IH].
  - exists s'. split; [apply reads_end; exact E|].
    assert (I := pdec_next_inv s OK). rewrite E in I. destruct I as (g & _ & [I|[I|(I1 & I2 & I3)]]).
    { destruct (T (TErr UnexpectedEof)) as [b C]; [rewrite I; apply in_or_app; right; left; reflexivity|discriminate]. }
    { destruct (T TEof) as [b C]; [rewrite I; apply in_or_app; right; left; reflexivity|discriminate]. }
    assert (OK' := pd_ok_step _ _ _ OK E). assert (F' : fin (pd_reader s') = AtEof).
    { assert (P := pdec_ptok s OK). rewrite E in P. cbn [omap_st] in P. unfold ptok_next in P. cbn [ptok_of pk_toks pk_fin pk_off] in P. rewrite I1, F in P.
      clear -P. destruct (re_tok 6 (map TByte g) AtEof) as [[hd [k|]] ts].
      - destruct k; unfold ptok_of in P; congruence.
      - destruct (wire_len hd <=? MAX_LEN); [|discriminate]. destruct (re_tok (wire_len hd - 6) ts AtEof) as [[body [k|]] ts2]; [destruct k|]; unfold ptok_of in P; congruence. }
    assert (P := pdec_ptok s' OK'). unfold ptok_next in P. cbn [ptok_of pk_toks pk_fin pk_off] in P. rewrite I2, F' in P. cbn [re_tok] in P.
    destruct (pdec_next s') as [[o s2]|]; [|discriminate]. cbn [omap_st] in P. exists s2. congruence.
  - destruct (pdec_step_len s a s' OK E) as [F' _]. destruct IH as (s2 & R & X).
    + eapply pd_ok_step; eassumption.
    + congruence.
    + intros t I. apply T. clear -E OK I. assert (J := pdec_next_inv s OK). rewrite E in J. destruct a as [p|e].
      * destruct J as (J & _). rewrite J. apply in_or_app. right. exact I.
      * destruct J as (_ & k & g & _ & _ & _ & [J|(J & J2 & _)]); [rewrite J; apply in_or_app; right; right; exact I|]. rewrite J2 in I. destruct I.
    + exists s2. split; [eapply reads_item; eassumption|exact X].
Qed.
Lemma reads_fails : forall ws tail c s, Forall wire_ok ws -> Forall (fun w => (N.of_nat (length (wire_bytes w)) <= 65536)%N) ws ->
  bytes_ok tail -> incomplete tail -> (6 <= length tail -> wire_len tail <= MAX_LEN) ->
  transcript (evs (pd_reader s)) = map TByte (concat (map wire_bytes ws) ++ tail) -> fin (pd_reader s) = Failing c ->
  reads pdec_next s (map Ok (packets_at (pd_offset s) ws)) Forever.
Proof.
  induction ws as [|w ws IH]; intros tail c s HW HL HB HI HM T F.
  - cbn [map concat app packets_at] in *. apply reads_fail.
    assert (OK : pd_ok s) by (unfold pd_ok; rewrite T; apply tbytes_ok_map; exact HB).
    assert (P := pdec_ptok s OK). unfold ptok_of at 2 in P. rewrite T, F, <- (app_nil_r (map TByte tail)) in P.
    rewrite (ptok_incomplete tail [] (Failing c) (pd_offset s) (OtherIo c) [] HB HI HM eq_refl) in P. cbn beta iota in P.
    destruct (pdec_next s) as [[o s']|] eqn:E; cbn [omap_st] in P; [|discriminate]. unfold ptok_of in P.
    assert (EO : o = Some (Err (Io (OtherIo c)))) by congruence. subst o.
    eapply fails_again; [exact E|]. eapply fails_tok with (c := c); [eapply pd_ok_step; eassumption|congruence|congruence].
  - cbn [map concat] in T. rewrite <- app_assoc in T. apply Forall_inv in HW as W1. apply Forall_inv_tail in HW. apply Forall_inv in HL as L1. apply Forall_inv_tail in HL.
    destruct (wire_bytes_props w W1) as (Hb & L7 & LW & HH).
    assert (OK : pd_ok s).
    { unfold pd_ok. rewrite T. apply tbytes_ok_map. rewrite !bytes_ok_app. split; [exact Hb|]. split; [apply concat_wire_ok; exact HW|exact HB]. }
    assert (P := pdec_ptok s OK). unfold ptok_of at 2 in P. rewrite T, F, map_app in P.
    rewrite ptok_packet in P; [|exact Hb|lia|lia|rewrite LW; apply max_len_spec; exact L1]. rewrite HH in P.
    destruct (pdec_next s) as [[o s']|] eqn:E; cbn [omap_st] in P; [|discriminate]. unfold ptok_of in P.
    cbn [packets_at map]. eapply reads_item.
    + rewrite E. f_equal. f_equal. congruence.
    + replace (pd_offset s + length (wire_bytes w)) with (pd_offset s') by congruence. eapply IH with (tail := tail) (c := c); try assumption; congruence.
Qed.
(* all of a file's packets, then: the end for good; a panic; a device that fails where the bytes end, or within the last packet *)
Theorem C79_inputs : forall bs ws,
  (file_holds bs ws -> exists s', reads pdec_next (pdec_new (reader_of bs)) (map Ok (packets_at 0 ws)) (EndsIn s') /\
     exists s2, pdec_next s' = Val (None, s2)) /\
  (too_big bs ws -> reads pdec_next (pdec_new (reader_of bs)) (map Ok (packets_at 0 ws)) Breaks) /\
  (forall r c, file_holds bs ws -> transcript (evs r) = map TByte bs -> fin r = Failing c ->
     reads pdec_next (pdec_new r) (map Ok (packets_at 0 ws)) Forever).
Proof.
  intros bs ws. split; [|split].
  - intro H. destruct bs as [|b bs'].
    + destruct H as (HW & _ & tail & E & _). symmetry in E. apply app_eq_nil in E. destruct E as [E _].
      destruct ws as [|w ws]; [|exfalso; apply Forall_inv in HW; destruct (wire_bytes_props w HW) as (_ & L7 & _); cbn [map concat] in E; apply app_eq_nil in E; destruct E as [E _]; rewrite E in L7; cbn in L7; lia].
      eexists. split; [apply reads_end; reflexivity|]. eexists. reflexivity.
    + set (bs := b :: bs') in *. assert (NB : bs <> []) by discriminate. assert (TT := transcript_data bs NB).
      assert (B : pd_ok (pdec_new (reader_of bs))).
      { unfold pd_ok. cbn [pd_reader pdec_new]. rewrite TT. apply tbytes_ok_map. destruct H as (HW & _ & tail & -> & HB & _). apply bytes_ok_app. split; [apply concat_wire_ok; exact HW|exact HB]. }
      apply reads_plain; [exact B|reflexivity| |apply C78_reading; exact H].
      intros t I. cbn [pd_reader pdec_new] in I. rewrite TT in I. apply in_map_iff in I. destruct I as (x & <- & _). eauto.
  - intro H. apply C78_reading in H. induction H as [s E|s s' a items E _ IH]; [apply reads_panic; exact E|eapply reads_item; eassumption].
  - intros r c (HW & HL & tail & -> & HB & HI & HT) T F. apply (reads_fails ws tail c (pdec_new r)); try assumption.
    intro L. apply max_len_spec. apply HT. exact L.
Qed.
Print Assumptions C79_inputs.
