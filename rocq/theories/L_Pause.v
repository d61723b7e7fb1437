(* Lemmas about frame_decoder and packet_decoder over any iterator *)
From Verif Require Import Base M_Reader M_Packet M_Sync M_Pn M_Frame M_FramePackets M_Group S_Group L_Base L_Packet L_Frame M_Live S_Live L_Live M_Pipeline M_Pause S_Pause.
Open Scope nat_scope.

Lemma steady_mono : forall S A (next : pullable S A), steady next -> mono next.
Proof. intros S A next H n s x E. apply (H n); [lia|exact E]. Qed.
Lemma yields_not_panics : forall S A (next : S -> outcome (option A * S)) s l l', yields next s l -> panics_after next s l' -> False.
Proof.
  intros S A next s l l' Y. revert l'. induction Y as [s s' E|s s' a items E Y IH]; intros l' P; inversion P as [? E1|? s1 ? ? E1 P1]; subst; try congruence.
  rewrite E1 in E. injection E as -> ->. eapply IH. exact P1.
Qed.
Lemma panics_det : forall S A (next : S -> outcome (option A * S)) s l l', panics_after next s l -> panics_after next s l' -> l = l'.
Proof.
  intros S A next s l l' Y. revert l'. induction Y as [s E|s s' a items E Y IH]; intros l' P; inversion P as [? E1|? s1 ? ? E1 P1]; subst; try congruence.
  rewrite E1 in E. injection E as -> ->. f_equal. apply IH. exact P1.
Qed.

(* ---- packet_decoder ---- *)
Section Unpack.
Context (izone trailer : nat).
(* the packets made of a list of frames, and the trackers after it unless the decoder panicked *)
Fixpoint frun (m : amap tracker) (fs : list frame) : list packet * option (amap tracker) :=
  match fs with
  | [] => ([], Some m)
  | f :: fs =>
      match fp_frame izone trailer (get_tracker (v_vcid (f_header f)) m) f with
      | Panic => ([], None)
      | Val (ps, t) => let r := frun (aset (v_vcid (f_header f)) t m) fs in (ps ++ fst r, snd r)
      end
  end.
Lemma frun_list : forall fs m rd,
  match snd (frun m fs) with
  | Some m' => yields (fpiter_next izone trailer) (mkFpiter fs m rd) (rd ++ fst (frun m fs))
  | None => panics_after (fpiter_next izone trailer) (mkFpiter fs m rd) (rd ++ fst (frun m fs))
  end.
Proof.
  induction fs as [|f fs IH]; intros m rd.
  - cbn [frun fst snd]. rewrite app_nil_r. induction rd as [|p rd IHr]; [eapply yields_nil; reflexivity|eapply yields_cons; [reflexivity|exact IHr]].
  - assert (R : forall l, (match snd (frun m (f :: fs)) with Some m' => yields (fpiter_next izone trailer) (mkFpiter (f :: fs) m []) l | None => panics_after (fpiter_next izone trailer) (mkFpiter (f :: fs) m []) l end) ->
      match snd (frun m (f :: fs)) with Some m' => yields (fpiter_next izone trailer) (mkFpiter (f :: fs) m rd) (rd ++ l) | None => panics_after (fpiter_next izone trailer) (mkFpiter (f :: fs) m rd) (rd ++ l) end).
    { intros l H. destruct (snd (frun m (f :: fs))); (induction rd as [|p rd IHr]; [exact H|]); [eapply yields_cons|eapply panics_cons]; try reflexivity; exact IHr. }
    apply R. clear R rd. cbn [frun]. set (v := v_vcid (f_header f)).
    assert (N : fpiter_next izone trailer (mkFpiter (f :: fs) m []) =
      let* '(ps, t) := fp_frame izone trailer (get_tracker v m) f in
      match ps with [] => fpiter_next izone trailer (mkFpiter fs (aset v t m) []) | p :: ps => Val (Some p, mkFpiter fs (aset v t m) ps) end) by reflexivity.
    destruct (fp_frame izone trailer (get_tracker v m) f) as [[ps t]|] eqn:E; cbn [fst snd obind] in *; [|apply panics_nil; exact N].
    specialize (IH (aset v t m)). destruct ps as [|p ps].
    + specialize (IH []). cbn [app] in *. destruct (snd (frun (aset v t m) fs)); inversion IH; subst; econstructor; try (rewrite N; eassumption); assumption.
    + specialize (IH ps). destruct (snd (frun (aset v t m) fs)); econstructor; try exact N; exact IH.
Qed.
Lemma frun_yields : forall fs ps, yields (fpiter_next izone trailer) (packet_decoder fs) ps <-> fst (frun [] fs) = ps /\ snd (frun [] fs) <> None.
Proof.
  intros fs ps. assert (F := frun_list fs [] []). cbn [app] in F. unfold packet_decoder. split.
  - intro Y. destruct (snd (frun [] fs)); [split; [apply (yields_det _ _ _ _ _ _ F Y)|discriminate]|destruct (yields_not_panics _ _ _ _ _ _ Y F)].
  - intros [<- H]. destruct (snd (frun [] fs)); [exact F|congruence].
Qed.
Lemma frun_panics : forall fs ps, panics_after (fpiter_next izone trailer) (packet_decoder fs) ps <-> fst (frun [] fs) = ps /\ snd (frun [] fs) = None.
Proof.
  intros fs ps. assert (F := frun_list fs [] []). cbn [app] in F. unfold packet_decoder. split.
  - intro Y. destruct (snd (frun [] fs)); [destruct (yields_not_panics _ _ _ _ _ _ F Y)|split; [apply (panics_det _ _ _ _ _ _ F Y)|reflexivity]].
  - intros [<- H]. rewrite H in F. exact F.
Qed.
Lemma frun_app : forall fs gs m, frun m (fs ++ gs) =
  match snd (frun m fs) with Some m' => (fst (frun m fs) ++ fst (frun m' gs), snd (frun m' gs)) | None => frun m fs end.
Proof.
  induction fs as [|f fs IH]; intros gs m.
  - cbn [app frun fst snd]. destruct (frun m gs); reflexivity.
  - cbn [app frun]. destruct (fp_frame izone trailer (get_tracker (v_vcid (f_header f)) m) f) as [[ps t]|]; [|reflexivity].
    cbv zeta. cbn [fst snd]. rewrite IH. destruct (snd (frun (aset (v_vcid (f_header f)) t m) fs)) eqn:E; cbn [fst snd]; rewrite ?app_assoc, ?E; reflexivity.
Qed.

Context {S : Type} (next : pullable S frame) (M : mono next).
Lemma mono_unpack_loop : forall n src m x, unpack_loop izone trailer next n src m = Some x -> unpack_loop izone trailer next (1 + n) src m = Some x.
Proof.
  induction n as [|n IH]; intros src m x E; [discriminate|].
  change (1 + Datatypes.S n) with (Datatypes.S (1 + n)). cbn [unpack_loop] in E. unfold unpack_loop; fold (@unpack_loop S).
  destruct (next n src) as [y|] eqn:EN; [|discriminate]. rewrite (M _ _ _ EN).
  destruct y as [[[f|] s']|]; try exact E. cbv zeta in *. destruct (fp_frame izone trailer (get_tracker (v_vcid (f_header f)) m) f) as [[[|p ps] t]|]; try exact E.
  apply IH. exact E.
Qed.
Lemma mono_unpack : mono (unpack_next izone trailer next).
Proof. intros n s x E. unfold unpack_next in *. destruct (un_ready s); [apply mono_unpack_loop|]; exact E. Qed.

Lemma unpack_ready : forall rd src m l h, pulls (unpack_next izone trailer next) (mkUnpack src m []) l h ->
  pulls (unpack_next izone trailer next) (mkUnpack src m rd) (rd ++ l) h.
Proof. induction rd as [|p rd IH]; intros src m l h P; [exact P|]. eapply pulls_item with (n := 0); [reflexivity|]. apply IH. exact P. Qed.
Lemma unpack_pulls : forall src fs h, pulls next src fs h -> forall m,
  pulls (unpack_next izone trailer next) (mkUnpack src m []) (fst (frun m fs))
    (match snd (frun m fs) with
     | None => Breaks
     | Some m' => match h with EndsIn s' => EndsIn (mkUnpack s' m' []) | Breaks => Breaks | Forever => Forever end
     end).
Proof.
  intros src fs h P. induction P as [n s s' E|n s E|s E|n s s' f fs h E P IH]; intro m.
  - eapply pulls_end with (n := Datatypes.S n). unfold unpack_next. cbn [un_ready un_src un_trackers unpack_loop]. rewrite E. reflexivity.
  - eapply pulls_panic with (n := Datatypes.S n). unfold unpack_next. cbn [un_ready un_src un_trackers unpack_loop]. rewrite E. reflexivity.
  - apply pulls_hang. intros [|n]; [reflexivity|]. unfold unpack_next. cbn [un_ready un_src un_trackers unpack_loop]. rewrite E. reflexivity.
  - cbn [frun]. set (v := v_vcid (f_header f)).
    assert (N : forall k, unpack_next izone trailer next (Datatypes.S (n + k)) (mkUnpack s m []) =
      match fp_frame izone trailer (get_tracker v m) f with
      | Panic => Some Panic
      | Val ([], t) => unpack_next izone trailer next (n + k) (mkUnpack s' (aset v t m) [])
      | Val (p :: ps, t) => Some (Val (Some p, mkUnpack s' (aset v t m) ps))
      end).
    { intro k. unfold unpack_next. cbn [un_ready un_src un_trackers unpack_loop]. rewrite (mono_le _ _ _ M n (n + k) _ _ ltac:(lia) E). reflexivity. }
    destruct (fp_frame izone trailer (get_tracker v m) f) as [[ps t]|] eqn:EF; cbn [fst snd].
    + cbv zeta. cbn [fst snd]. specialize (IH (aset v t m)). destruct ps as [|p ps].
      * cbn [app]. set (hh := match snd _ with Some _ => _ | None => _ end) in *. clearbody hh. set (ll := fst _) in *. clearbody ll.
        assert (K : forall k y, unpack_next izone trailer next k (mkUnpack s' (aset v t m) []) = Some y -> unpack_next izone trailer next (Datatypes.S (n + k)) (mkUnpack s m []) = Some y).
        { intros k y Y. rewrite N. apply (mono_le _ _ _ mono_unpack k (n + k)); [lia|exact Y]. }
        inversion IH as [k ? ? Y|k ? Y|? Y|k ? s2 b l' ? Y P2]; subst.
        -- eapply pulls_end. apply K. exact Y.
        -- eapply pulls_panic. apply K. exact Y.
        -- apply pulls_hang. intros [|k]; [reflexivity|].
           destruct (unpack_next izone trailer next (Datatypes.S k) (mkUnpack s m [])) as [y|] eqn:EK; [|reflexivity].
           apply (mono_le _ _ _ mono_unpack _ (Datatypes.S (n + k))) in EK; [|lia]. rewrite N, Y in EK. discriminate.
        -- eapply pulls_item; [apply K; exact Y|exact P2].
      * cbn [app]. eapply pulls_item with (n := Datatypes.S (n + 0)); [apply N|]. apply unpack_ready. exact IH.
    + eapply pulls_panic with (n := Datatypes.S (n + 0)). apply N.
Qed.
End Unpack.

(* ---- sittings ---- *)
(* lists of items, one after the other, through a stateful process that may panic *)
Fixpoint over {M A B : Type} (run : M -> list A -> list B * option M) (m : M) (ls : list (list A)) : list (list B) * option M :=
  match ls with
  | [] => ([], Some m)
  | l :: ls =>
      match snd (run m l) with
      | None => ([fst (run m l)], None)
      | Some m' => (fst (run m l) :: fst (over run m' ls), snd (over run m' ls))
      end
  end.
Definition app_run {M A B : Type} (run : M -> list A -> list B * option M) : Prop :=
  (forall m, run m [] = ([], Some m)) /\
  forall l l' m, run m (l ++ l') = match snd (run m l) with Some m' => (fst (run m l) ++ fst (run m' l'), snd (run m' l')) | None => run m l end.
Lemma over_concat : forall M A B (run : M -> list A -> list B * option M), app_run run -> forall ls m,
  concat (fst (over run m ls)) = fst (run m (concat ls)) /\ snd (over run m ls) = snd (run m (concat ls)).
Proof.
  intros M A B run [R0 R]. induction ls as [|l ls IH]; intro m; cbn [over concat].
  - rewrite R0. auto.
  - rewrite R. destruct (snd (run m l)) as [m'|] eqn:E; cbn [fst snd concat].
    + destruct (IH m') as [-> ->]. auto.
    + rewrite app_nil_r. auto.
Qed.
Lemma over_prefix : forall M A B (run : M -> list A -> list B * option M) ls m k,
  snd (over run m ls) <> None -> fst (over run m (firstn k ls)) = firstn k (fst (over run m ls)) /\ snd (over run m (firstn k ls)) <> None.
Proof.
  intros M A B run. induction ls as [|l ls IH]; intros m k H; destruct k as [|k]; cbn [over firstn fst snd] in *; try (split; [reflexivity|congruence]).
  destruct (snd (run m l)) as [m'|] eqn:E; cbn [fst snd firstn] in *; [|congruence]. destruct (IH m' k H) as [-> H2]. split; [reflexivity|exact H2].
Qed.
Lemma over_length : forall M A B (run : M -> list A -> list B * option M) ls m,
  length (fst (over run m ls)) <= length ls /\ (snd (over run m ls) <> None -> length (fst (over run m ls)) = length ls).
Proof.
  intros M A B run. induction ls as [|l ls IH]; intro m; cbn [over].
  - split; reflexivity.
  - destruct (snd (run m l)) as [m'|] eqn:E; cbn [fst snd length].
    + destruct (IH m') as [L1 L2]. split; [lia|]. intro H. rewrite L2 by exact H. reflexivity.
    + split; [lia|congruence].
Qed.
(* the state of an adaptor when its source has come to this *)
Definition carried {S T M : Type} (f : M -> S -> T) (o : option M) (h : reading S) : reading T :=
  match o with
  | None => Breaks
  | Some m => match h with EndsIn s => EndsIn (f m s) | Breaks => Breaks | Forever => Forever end
  end.
Lemma carried_status : forall S T M (f : M -> S -> T) o h, o <> None -> status_of (carried f o h) = status_of h.
Proof. intros S T M f [m|] h H; [|congruence]. destruct h; reflexivity. Qed.
Lemma sit_cons : forall S A (next : pullable S A) n s s1 a l ls h, next n s = Some (Val (Some a, s1)) ->
  sittings next s1 (l :: ls) h -> sittings next s ((a :: l) :: ls) h.
Proof.
  intros S A next n s s1 a l ls h E P. inversion P as [? ? ? P1|? ? s' ? ? P1 P2]; subst.
  - apply sit_last. eapply pulls_item; eassumption.
  - eapply sit_more; [eapply pulls_item; eassumption|exact P2].
Qed.

Lemma unpack_sittings : forall izone trailer S (next : pullable S frame), mono next -> forall src parts h, sittings next src parts h -> forall m,
  sittings (unpack_next izone trailer next) (mkUnpack src m []) (fst (over (frun izone trailer) m parts))
    (carried (fun m s => mkUnpack s m []) (snd (over (frun izone trailer) m parts)) h).
Proof.
  intros izone trailer S next M src parts h P. induction P as [s l h P|s l s' ls h P P2 IH]; intro m; cbn [over].
  - assert (U := unpack_pulls izone trailer next M _ _ _ P m). destruct (snd (frun izone trailer m l)) as [m'|]; cbn [fst snd carried]; apply sit_last; exact U.
  - assert (U := unpack_pulls izone trailer next M _ _ _ P m). destruct (snd (frun izone trailer m l)) as [m'|]; cbn [fst snd].
    + eapply sit_more; [exact U|apply IH].
    + apply sit_last. exact U.
Qed.
Lemma frun_app_run : forall izone trailer, app_run (frun izone trailer).
Proof. intros. split; [reflexivity|]. intros. apply frun_app. Qed.

(* ---- frame_decoder ---- *)
Section Decoding.
Context (ovf : bool).
Definition dstep (m : amap N) (c : block) : outcome (option frame * amap N) :=
  let* '(f, d) := fdec_next ovf (mkFdec m [c]) in Val (f, fd_counters d).
Fixpoint drun (m : amap N) (cs : list block) : list frame * option (amap N) :=
  match cs with
  | [] => ([], Some m)
  | c :: cs =>
      match dstep m c with
      | Panic => ([], None)
      | Val (f, m') => let r := drun m' cs in ((match f with Some f => [f] | None => [] end) ++ fst r, snd r)
      end
  end.
Lemma drun_app_run : app_run drun.
Proof.
  split; [reflexivity|]. induction l as [|c l IH]; intros l' m.
  - cbn [app drun fst snd]. destruct (drun m l'); reflexivity.
  - cbn [app drun]. destruct (dstep m c) as [[f m']|]; [|reflexivity]. cbv zeta. cbn [fst snd]. rewrite IH.
    destruct (snd (drun m' l)) eqn:E; cbn [fst snd]; rewrite ?app_assoc, ?E; reflexivity.
Qed.
Lemma dstep_list : forall m c rest, fdec_next ovf (mkFdec m (c :: rest)) = let* '(f, m') := dstep m c in Val (f, mkFdec m' rest).
Proof.
  intros m c rest. unfold dstep, fdec_next. cbn [fd_cadus fd_counters].
  destruct (vcdu_decode (bl_data c)) as [[h|]|]; cbn [obind]; try reflexivity.
  destruct (if negb (v_vcid h =? VCID_FILL)%N then _ else _); reflexivity.
Qed.
Lemma vcdu_readable : forall c, match vcdu_decode (bl_data c) with Val None => unreadable c = true | Val (Some _) => unreadable c = false | Panic => False end.
Proof.
  intro c. unfold unreadable. destruct (Nat.ltb_spec (length (bl_data c)) 6) as [L|L]; cbn [orb].
  - rewrite vcdu_decode_short by exact L. reflexivity.
  - destruct (bl_data c) as [|b0 [|b1 [|b2 [|b3 [|b4 [|b5 rest]]]]]] eqn:E; cbn [length] in L; try lia.
    unfold vcdu_decode. replace (length _ <? VCDU_LEN) with false by (symmetry; apply Nat.ltb_ge; change VCDU_LEN with 6; cbn [length]; lia).
    cbn [get nth_error obind nth].
    assert (B : N.testbit b0 7 = N.testbit (N.land (N.shiftr b0 6) 3) 1) by (rewrite N.land_spec, N.shiftr_spec by lia; change (1 + 6)%N with 7%N; change (N.testbit 3 1) with true; rewrite andb_true_r; reflexivity).
    assert (U : (N.land (N.shiftr b0 6) 3 < 4)%N) by (change 3%N with (N.ones 2); rewrite N.land_ones; apply N.mod_lt; discriminate).
    rewrite B. clear B. destruct (N.land (N.shiftr b0 6) 3) as [|[[p|p|]|[p|p|]|]]; try lia; reflexivity.
Qed.
Lemma dstep_short : forall m c, unreadable c = true -> dstep m c = Val (None, m).
Proof.
  intros m c H. unfold dstep, fdec_next. cbn [fd_cadus fd_counters]. assert (R := vcdu_readable c).
  destruct (vcdu_decode (bl_data c)) as [[h|]|]; [congruence|reflexivity|contradiction].
Qed.
Lemma dstep_long : forall m c x m', unreadable c = false -> dstep m c = Val (x, m') -> exists f, x = Some f.
Proof.
  intros m c x m' H E. unfold dstep, fdec_next in E. cbn [fd_cadus fd_counters] in E. assert (R := vcdu_readable c).
  destruct (vcdu_decode (bl_data c)) as [[h|]|]; cbn [obind] in E; [|congruence|contradiction].
  destruct (if negb (v_vcid h =? VCID_FILL)%N then _ else _); cbn [obind] in E; [|discriminate]. injection E as <- _. eauto.
Qed.
Lemma drun_list : forall cs m, Forall (fun c => unreadable c = false) cs ->
  match snd (drun m cs) with
  | Some _ => yields (fdec_next ovf) (mkFdec m cs) (fst (drun m cs))
  | None => panics_after (fdec_next ovf) (mkFdec m cs) (fst (drun m cs))
  end.
Proof.
  induction cs as [|c cs IH]; intros m F; cbn [drun].
  - eapply yields_nil. reflexivity.
  - inversion F as [|? ? F1 F2]; subst. assert (N := dstep_list m c cs). destruct (dstep m c) as [[x m']|] eqn:E; cbn [obind fst snd] in *.
    + cbv zeta. cbn [fst snd]. destruct (dstep_long _ _ _ _ F1 E) as [f ->]. cbn [app]. specialize (IH m' F2).
      destruct (snd (drun m' cs)); econstructor; try exact N; exact IH.
    + apply panics_nil. exact N.
Qed.
Lemma drun_yields : forall cs fs, Forall (fun c => unreadable c = false) cs ->
  (yields (fdec_next ovf) (frame_decoder cs) fs <-> fst (drun [] cs) = fs /\ snd (drun [] cs) <> None).
Proof.
  intros cs fs F. assert (D := drun_list cs [] F). unfold frame_decoder. split.
  - intro Y. destruct (snd (drun [] cs)); [split; [apply (yields_det _ _ _ _ _ _ D Y)|discriminate]|destruct (yields_not_panics _ _ _ _ _ _ Y D)].
  - intros [<- H]. destruct (snd (drun [] cs)); [exact D|congruence].
Qed.
Lemma drun_panics : forall cs fs, Forall (fun c => unreadable c = false) cs ->
  (panics_after (fdec_next ovf) (frame_decoder cs) fs <-> fst (drun [] cs) = fs /\ snd (drun [] cs) = None).
Proof.
  intros cs fs F. assert (D := drun_list cs [] F). unfold frame_decoder. split.
  - intro Y. destruct (snd (drun [] cs)); [destruct (yields_not_panics _ _ _ _ _ _ D Y)|split; [apply (panics_det _ _ _ _ _ _ D Y)|reflexivity]].
  - intros [<- H]. rewrite H in D. exact D.
Qed.
Lemma cut_long : forall cs, Forall (Forall (fun c => unreadable c = false)) (cut cs).
Proof.
  induction cs as [|c cs IH]; cbn [cut]; [repeat constructor|]. destruct (unreadable c) eqn:U; [constructor; [constructor|exact IH]|].
  destruct (cut cs) as [|l ls]; inversion IH; subst; repeat constructor; assumption.
Qed.
Lemma cut_cons : forall cs, exists l ls, cut cs = l :: ls.
Proof. destruct cs as [|c cs]; cbn [cut]; [eauto|]. destruct (unreadable c); [eauto|]. destruct (cut cs); eauto. Qed.

Context {S : Type} (next : pullable S block) (M : mono next).
Lemma mono_decoding : mono (decoding_next ovf next).
Proof. intros n s x E. unfold decoding_next in *. destruct (next n (dc_src s)) as [y|] eqn:EN; [|discriminate]. rewrite (M _ _ _ EN). exact E. Qed.
Lemma decoding_item : forall n m s c s', next n s = Some (Val (Some c, s')) ->
  decoding_next ovf next n (mkDecoding m s) = Some (let* '(f, m') := dstep m c in Val (f, mkDecoding m' s')).
Proof.
  intros n m s c s' E. unfold decoding_next. cbn [dc_src dc_counters]. rewrite E. unfold dstep.
  destruct (fdec_next ovf (mkFdec m [c])) as [[f d]|]; reflexivity.
Qed.
(* [lists]: what is still to come after this sitting of the source *)
Lemma decoding_pulls : forall src cs h, pulls next src cs h -> forall lists hh,
  (lists = [] /\ hh = h \/
   exists s', h = EndsIn s' /\ forall m, sittings (decoding_next ovf next) (mkDecoding m s') (fst (over drun m lists)) (carried mkDecoding (snd (over drun m lists)) hh)) ->
  forall m, sittings (decoding_next ovf next) (mkDecoding m src) (fst (over drun m (cut cs ++ lists))) (carried mkDecoding (snd (over drun m (cut cs ++ lists))) hh).
Proof.
  intros src cs h P. induction P as [n s s' E|n s E|s E|n s s' c cs h E P IH]; intros lists hh C m.
  - cbn [cut app over drun fst snd].
    assert (P : pulls (decoding_next ovf next) (mkDecoding m s) [] (EndsIn (mkDecoding m s'))) by (eapply pulls_end with (n := n); unfold decoding_next; cbn [dc_src]; rewrite E; reflexivity).
    destruct C as [[-> ->]|(s1 & E1 & C)]; [apply sit_last; exact P|]. injection E1 as <-. eapply sit_more; [exact P|apply C].
  - destruct C as [[-> ->]|(s1 & E1 & C)]; [|discriminate]. cbn [cut app over drun fst snd carried]. apply sit_last.
    eapply pulls_panic with (n := n). unfold decoding_next. cbn [dc_src]. rewrite E. reflexivity.
  - destruct C as [[-> ->]|(s1 & E1 & C)]; [|discriminate]. cbn [cut app over drun fst snd carried]. apply sit_last.
    apply pulls_hang. intro n. unfold decoding_next. cbn [dc_src]. rewrite E. reflexivity.
  - specialize (IH lists hh C). clear C P. assert (D := decoding_item n m s c s' E). cbn [cut]. destruct (unreadable c) eqn:L.
    + cbn [app over drun fst snd]. rewrite dstep_short in D by exact L. cbn [obind] in D. eapply sit_more; [eapply pulls_end; exact D|apply IH].
    + destruct (cut_cons cs) as (l & ls & EC). rewrite EC in *. cbn [app over] in *. cbn [drun].
      destruct (dstep m c) as [[x m']|] eqn:ED; cbn [obind fst snd] in *.
      * cbv zeta. cbn [fst snd]. destruct (dstep_long _ _ _ _ L ED) as [f ->]. cbn [app].
        specialize (IH m'). destruct (snd (drun m' l)) as [m2|]; cbn [fst snd] in *; eapply sit_cons; try exact D; exact IH.
      * apply sit_last. eapply pulls_panic. exact D.
Qed.
Lemma decoding_sittings : forall src parts h, sittings next src parts h -> forall m,
  sittings (decoding_next ovf next) (mkDecoding m src) (fst (over drun m (concat (map cut parts)))) (carried mkDecoding (snd (over drun m (concat (map cut parts)))) h).
Proof.
  intros src parts h P. induction P as [s l h P|s l s' ls h P P2 IH]; intro m; cbn [map concat].
  - eapply decoding_pulls; [exact P|]. left. split; reflexivity.
  - eapply decoding_pulls; [exact P|]. right. exists s'. split; [reflexivity|exact IH].
Qed.
End Decoding.

(* ---- groups ---- *)
Lemma hands_pulls : forall S A (next : pullable S A) s l s', hands next s l s' -> forall l' h, pulls next s' l' h -> pulls next s (l ++ l') h.
Proof. intros S A next s l s' H. induction H as [s|n s s1 s' a l E H IH]; intros l' h P; [exact P|]. cbn [app]. eapply pulls_item; [exact E|]. apply IH. exact P. Qed.
Lemma hands_app : forall S A (next : pullable S A) s l s', hands next s l s' -> forall l' s2, hands next s' l' s2 -> hands next s (l ++ l') s2.
Proof. intros S A next s l s' H. induction H as [s|n s s1 s' a l E H IH]; intros l' s2 P; [exact P|]. cbn [app]. eapply hands_item; [exact E|]. apply IH. exact P. Qed.
