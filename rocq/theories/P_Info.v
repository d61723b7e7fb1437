(* C88: the info command as a process. *)
From Coq Require Import String List Sorted.
From Verif Require Import Base S_InfoTotals M_Reader M_Packet M_Merge M_Cli M_Main M_Write M_Json M_Stdout M_Text M_Info
  S_Json S_Packet S_Group S_Merge S_Cli S_Main S_Write S_AnyFile S_Stdout S_Report S_Text S_Info
  L_Packet L_Merge L_Json L_Stdout L_Text L_Info P_Main P_CliInfo P_CliDiff2 P_AnyFile P_Json P_Stdout P_Text.
Open Scope N_scope.


Lemma row_words : forall et a s,
  exists between, words_of (info_row et a s) = dec a :: between ++ [dec (i_total s); dec (i_missing s)].
Proof.
  intros et a s. unfold info_row. change (text "  ") with [32; 32]. change (text "   ") with [32; 32; 32]. cbn [app].
  rewrite words_pad by apply dec_wordy. rewrite words_skip.
  rewrite app_assoc with (l := html (pad 33 (time_text et (i_first s)))) || idtac.
  eexists. f_equal.
  match goal with |- words_of (?x ++ 32 :: 32 :: ?y ++ 32 :: 32 :: 32 :: ?z) = _ =>
    transitivity (words_of ((x ++ 32 :: 32 :: y) ++ 32 :: 32 :: 32 :: z)); [f_equal; rewrite <- app_assoc; reflexivity|] end.
  rewrite words_app, !words_skip, words_pad by apply dec_wordy. rewrite !words_skip, words_pad_last by apply dec_wordy. reflexivity.
Qed.
Lemma html_pad : forall w s, plain s -> html (pad w s) = pad w s.
Proof.
  intros w s H. apply html_ordinary. intros c I. unfold pad in I. apply in_app_or in I. destruct I as [I|I]; [|eapply plain_ordinary; eassumption].
  apply repeat_spec in I. subst c. unfold special. cbn. intuition discriminate.
Qed.
Lemma nil_plain : plain [].
Proof. constructor. Qed.
Lemma time_plain : forall et t, (forall t, plain (et t)) -> plain (time_text et t).
Proof. intros et [t|] H; [apply H|apply nil_plain]. Qed.
Lemma row_is : forall (tm : packet -> option Z) et a ps s, (forall t, plain (et t)) -> describes tm ps s -> i_missing s = gaps ps ->
  apid_row tm et a ps (info_row et a s) /\ clean (info_row et a s).
Proof.
  intros tm et a ps s P (T & F & L & _) M.
  assert (EF : time_text et (i_first s) = earliest tm et ps) by (rewrite F; reflexivity).
  assert (EL : time_text et (i_last s) = latest tm et ps) by (rewrite L; reflexivity).
  split; [|unfold info_row; rewrite !html_pad by (apply time_plain; exact P);
           assert (forall t, clean (time_text et t)) by (intros; apply plain_clean, time_plain, P); cl; auto].
  split.
  - destruct (row_words et a s) as (b & W). exists (dec a), b, (dec (i_total s)), (dec (i_missing s)).
    split; [exact W|]. rewrite <- T, <- M. split; [apply dec_number|]. split; apply dec_number.
  - intros A B C D E. unfold info_row. rewrite !html_pad by (apply time_plain; exact P). rewrite EF, EL, T, M.
    assert (P1 : length (pad 6 (dec a)) = 6%nat) by (apply pad_fits, dec_length; [exact A|lia]).
    assert (P2 : length (pad 33 (earliest tm et ps)) = 33%nat) by (apply pad_fits; exact D).
    assert (P3 : length (pad 33 (latest tm et ps)) = 33%nat) by (apply pad_fits; exact E).
    assert (P4 : length (pad 6 (dec (N.of_nat (length ps)))) = 6%nat) by (apply pad_fits, dec_length; [exact B|lia]).
    assert (P5 : length (pad 7 (dec (gaps ps))) = 7%nat) by (apply pad_fits, dec_length; [exact C|lia]).
    split; [rewrite !app_length, P1, P2, P3, P4, P5; reflexivity|].
    exists (pad 6 (dec a)), (pad 33 (earliest tm et ps)), (pad 33 (latest tm et ps)), (pad 6 (dec (N.of_nat (length ps)))), (pad 7 (dec (gaps ps))).
    split; [repeat (rewrite cells_app by (assumption || reflexivity)); rewrite cells_last by assumption; reflexivity|].
    split; [apply shows_pad|]. split; [eexists; reflexivity|]. split; [eexists; reflexivity|]. split; apply shows_pad.
Qed.
Lemma report_success : forall ls evs fin got, ls <> [] -> report_to_stdout [concat (map newline ls)] evs fin = (Success, got) ->
  got = concat (map newline ls).
Proof.
  intros ls evs fin got NE R. unfold report_to_stdout in R. destruct (to_stdout [concat (map newline ls)] evs fin) as [[e|] g] eqn:E; [discriminate|].
  injection R as <-. destruct (newline_ends ls NE) as (t & T). rewrite T. eapply C85_ends_with_newline; [exact E|]. cbn [concat]. rewrite app_nil_r. exact T.
Qed.

(* info --format text on a file of packets that reports success: what arrives on standard output are eleven lines - the
   file name, the earliest and latest time, the time between, the apids, the counts - and one line for each apid that
   occurs, by increasing apid. *)
Theorem C88_text : forall ovf je js epoch_text span_text evs fin fs names input cds bs ws got,
  aget input fs = Some bs -> file_holds bs ws ->
  plain (names input) -> (forall t, plain (epoch_text t)) -> (forall d, plain (span_text d)) ->
  info_process ovf je js epoch_text span_text evs fin fs names input AsText cds (InfoExits Success) got ->
  let ps := packets_at 0 ws in let time_of := decoder_of cds in
  exists name r1 first last span apidl count missing r2 r3 r4 apids listed body,
    lines_of got = [name; r1; first; last; span; apidl; count; missing; r2; r3; r4] ++ body /\
    name = names input /\ r1 = repeat 61 95 /\ r2 = repeat 45 95 /\ r4 = repeat 45 95 /\
    words_of r3 = map text ["APID"; "First"; "Last"; "Count"; "Missing"]%string /\
    labelled "First:    " (earliest time_of epoch_text ps) first /\
    labelled "Last:     " (latest time_of epoch_text ps ++ text " ") last /\
    labelled "Duration: " (span_text (time_span time_of ps)) span /\
    labelled "APIDS:    " listed apidl /\ Forall2 shows (between_commas listed) apids /\
    counted "Count:" (N.of_nat (length ps)) count /\
    counted "Missing:" (sumN (map (fun a => gaps (of_apid a ps)) apids)) missing /\
    StronglySorted N.lt apids /\ (forall a, In a apids <-> exists w, In w ws /\ apid (w_header w) = a) /\
    Forall2 (fun a line => apid_row time_of epoch_text a (of_apid a ps) line) apids body.
Proof.
  intros ovf je js et st evs fin fs names input cds bs ws got G F PN PE PS H ps time_of.
  destruct (C69_info_command ovf fs input bs ws cds G F) as (all & rows & E & D & M & SS & IN & RS).
  fold ps in D, RS. fold (decoder_of cds) in D, RS. fold time_of in D, RS.
  inversion H as [E0 | E0 | all0 rows0 pieces x g E0 FM CC RP EX | all0 rows0 x g E0 FM RP EX EG]; subst; [discriminate FM|].
  rewrite E in E0. injection E0 as <- <-.
  assert (RW : forall l, (forall v i, In (v, i) l -> In (v, i) rows) ->
     Forall2 (fun a line => apid_row time_of et a (of_apid a ps) line) (map fst l) (map (fun r => info_row et (fst r) (snd r)) l) /\
     Forall clean (map (fun r => info_row et (fst r) (snd r)) l)).
  { induction l as [|[v i] l IH]; intros I; [split; constructor|]. cbn [map fst snd].
    destruct (IH (fun v0 i0 H0 => I v0 i0 (or_intror H0))) as [I1 I2].
    destruct (RS v i (I v i (or_introl eq_refl))) as [Q1 Q2]. destruct (row_is time_of et v _ i PE Q1 Q2). split; constructor; assumption. }
  destruct (RW rows (fun _ _ X => X)) as [RW1 RW2]. clear RW.
  unfold info_text in RP. apply report_success in RP; [|discriminate]. subst got.
  assert (MS : i_missing all = sumN (map (fun a => gaps (of_apid a ps)) (map fst rows))).
  { rewrite M. unfold missing_sum, sumN.
    assert (X : forall l, (forall v i, In (v, i) l -> In (v, i) rows) ->
      fold_right N.add 0 (map (fun x => i_missing (snd x)) l) = fold_right N.add 0 (map (fun x => gaps (of_apid x ps)) (map fst l))).
    { induction l as [|[v i] l IH]; intros I; [reflexivity|]. cbn [map fst snd fold_right].
      rewrite IH by (intros; apply I; right; assumption). destruct (RS v i (I v i (or_introl eq_refl))) as [_ Q2]. rewrite Q2. reflexivity. }
    apply X. auto. }
  assert (CT : forall t, clean (time_text et t)) by (intros; apply plain_clean, time_plain, PE).
  assert (CS : forall d, clean (st d)) by (intros; apply plain_clean, PS).
  assert (CN : clean (names input)) by (apply plain_clean, PN).
  destruct D as (T & FI & LA & DU).
  rewrite lines_newline.
  2:{ apply Forall_app. split; [|exact RW2]. unfold info_head.
      rewrite !html_plain by first [assumption | apply PS | apply time_plain; exact PE].
      repeat (constructor; [first [apply CN | cl; first [apply CT | apply CS | apply apid_list_clean]]|]). constructor. }
  unfold info_head. rewrite !html_plain by first [assumption | apply PS | apply time_plain; exact PE].
  do 11 eexists. exists (map fst rows), (apid_list (map fst rows)), (map (fun r => info_row et (fst r) (snd r)) rows).
  split; [reflexivity|]. split; [reflexivity|]. do 4 (split; [reflexivity|]).
  split; [unfold labelled; rewrite FI; reflexivity|]. split; [unfold labelled; rewrite LA; reflexivity|].
  split; [unfold labelled; rewrite DU; reflexivity|]. split; [reflexivity|]. split; [apply apid_list_shows|].
  split; [exists (repeat 32 4 ++ dec (i_total all)); split; [reflexivity|rewrite T; apply words_label]|].
  split; [exists (repeat 32 2 ++ dec (i_missing all)); split; [reflexivity|rewrite MS; apply words_label]|].
  split; [exact SS|]. split; [exact IN|]. exact RW1.
Qed.
Print Assumptions C88_text.

Lemma seq_ok : forall bs ws, file_holds bs ws -> Forall (fun p => sequence_id (p_header p) < 16384) (keep_ok (map Ok (packets_at 0 ws))).
Proof.
  intros bs ws (HW & _). rewrite keep_ok_map. generalize 0%nat. induction HW as [|w ws H _ IH]; intro off; cbn [packets_at]; constructor; [|apply IH].
  cbn [p_header]. destruct H as (H & _). unfold header_ok in H. change (2 ^ 14) with 16384 in H. lia.
Qed.
(* info --format json: a beginning of a JSON text arrives, all of it unless the device fails, and it reads as the report. *)
Theorem C88_json : forall ovf epoch span et st evs fin fs names input cds bs ws got,
  aget input fs = Some bs -> file_holds bs ws ->
  info_process ovf epoch span et st evs fin fs names input AsJson cds (InfoExits Success) got ->
  exists t v, read_json t = Some v /\ info_report (decoder_of cds) epoch span (names input) (packets_at 0 ws) v /\
    beginning got t /\ (got = t \/ exists k, first_failure evs fin k).
Proof.
  intros ovf je js et st evs fin fs names input cds bs ws got G F H.
  inversion H as [E0 | E0 | all rows pieces x g E0 FM CC RP EX | all rows x g E0 FM RP EX EG]; subst; [|discriminate].
  unfold info_command in E0. rewrite G, (file_items_ok _ _ F) in E0. cbn [obind] in E0.
  destruct (summarize ovf (if cds then Some cds_time else None) (map Ok (packets_at 0 ws))) as [[a r]|] eqn:E; [|discriminate].
  cbn [obind] in E0. injection E0 as <- <-.
  destruct (C84_info_json ovf _ je js (names input) _ _ _ (seq_ok _ _ F) E) as (v & R & I).
  rewrite keep_ok_map in I. exists (concat pieces), v. rewrite CC at 1. split; [exact R|]. split; [exact I|].
  unfold report_to_stdout in RP. destruct (to_stdout pieces evs fin) as [[e|] g'] eqn:TS; [discriminate|]. injection RP as <-.
  destruct (C85_stdout _ _ _ _ _ TS) as (B & _ & C). split; [exact B|exact C].
Qed.
Print Assumptions C88_json.

(* The first line is the file name exactly if the name has none of the characters that HTML wants escaped; the names of
   different files are shown differently all the same. *)
Theorem C88_name : forall et st name all rows, ~ In 10 name ->
  exists line rest, lines_of (info_text et st name all rows) = line :: rest /\
    (line = name <-> forall c, In c name -> ~ In c [34; 38; 39; 60; 61; 62; 96]).
Proof.
  intros et st name all rows H. unfold info_text, info_head. cbn [app map concat].
  exists (html name). eexists. split; [|exact (html_same name)].
  unfold lines_of, newline at 1. rewrite <- app_assoc. cbn [app]. rewrite lines_cur by (apply html_clean; exact H). reflexivity.
Qed.
Print Assumptions C88_name.
Theorem C88_names_differ : forall et st name name' all rows, ~ In 10 name -> ~ In 10 name' ->
  hd_error (lines_of (info_text et st name all rows)) = hd_error (lines_of (info_text et st name' all rows)) -> name = name'.
Proof.
  intros et st name name' all rows H H'. unfold info_text, info_head. cbn [app map concat]. unfold lines_of, newline at 1 13.
  rewrite <- !app_assoc. cbn [app]. rewrite !lines_cur by (apply html_clean; assumption). cbn [hd_error rev app]. intros E. injection E as E.
  apply html_injective. exact E.
Qed.
Print Assumptions C88_names_differ.
(* The expectation that the report shows the name of the file *)
Theorem C88_name_refuted : forall et st all rows,
  hd_error (lines_of (info_text et st (text "a=b.dat") all rows)) = Some (text "a&#x3D;b.dat").
Proof.
  intros et st all rows. unfold info_text, info_head. cbn [app map concat]. unfold lines_of, newline at 1.
  rewrite <- !app_assoc. cbn [app]. rewrite lines_cur by (apply clean_b; reflexivity). reflexivity.
Qed.
Print Assumptions C88_name_refuted.

(* How the command ends, on any file: it panics exactly on a file that has a packet that is too long, fails without a word
   on standard output if there is no file, and otherwise fails exactly if a write to standard output failed. The files are
   not changed (the command has no result on them). *)
Theorem C88_ends : forall ovf je js et st evs fin fs names input format cds e got, disk_ok fs ->
  info_process ovf je js et st evs fin fs names input format cds e got ->
  (e = InfoPanics /\ bad_file fs input /\ got = []) \/
  (e = InfoExits Failure /\ aget input fs = None /\ got = []) \/
  (exists bs ws t, aget input fs = Some bs /\ file_holds bs ws /\ beginning got t /\
     (format = AsText -> e = InfoExits Success -> got = t) /\
     ((e = InfoExits Success /\ (got = t \/ exists k, first_failure evs fin k)) \/
      (e = InfoExits Failure /\ exists k, first_failure evs fin k))).
Proof.
  intros ovf je js et st evs fin fs names input format cds e got D H.
  assert (R : forall all rows pieces x got, info_command ovf fs input cds = Val (Some (all, rows)) -> report_to_stdout pieces evs fin = (x, got) ->
    exists bs ws, aget input fs = Some bs /\ file_holds bs ws /\ beginning got (concat pieces) /\
      ((InfoExits x = InfoExits Success /\ (got = concat pieces \/ exists k, first_failure evs fin k)) \/
       (InfoExits x = InfoExits Failure /\ exists k, first_failure evs fin k))).
  { intros all rows pieces x g C RP. destruct (aget input fs) as [bs|] eqn:G; [|rewrite (C69_info_missing_file _ _ _ _ G) in C; discriminate].
    destruct (bad_dec fs input D) as [B|NB]; [apply (C78_info ovf fs input cds D) in B; congruence|].
    destruct (not_bad _ _ _ D G NB) as [ws F]. exists bs, ws. split; [reflexivity|]. split; [exact F|].
    unfold report_to_stdout in RP. destruct (to_stdout pieces evs fin) as [[k|] g'] eqn:TS; injection RP as <- <-;
      destruct (C85_stdout _ _ _ _ _ TS) as (B & C'); (split; [exact B|]).
    - right. split; [reflexivity|]. exists k. exact C'.
    - left. split; [reflexivity|]. apply C'. }
  inversion H as [E0 | E0 | all rows pieces x g E0 FM CC RP EX | all rows x g E0 FM RP EX EG]; subst.
  - left. split; [reflexivity|]. split; [|reflexivity]. apply (C78_info ovf fs input cds D). exact E0.
  - right. left. split; [reflexivity|]. split; [|reflexivity].
    unfold info_command in E0. destruct (aget input fs); [|reflexivity]. destruct (file_items l); [|discriminate]. cbn [obind] in E0.
    destruct (summarize _ _ _); discriminate.
  - right. right. destruct (R _ _ _ _ _ E0 RP) as (bs & ws & A & B & C & E). exists bs, ws, (concat pieces).
    split; [exact A|]. split; [exact B|]. split; [exact C|]. split; [discriminate|exact E].
  - right. right. destruct (R _ _ _ _ _ E0 RP) as (bs & ws & A & B & C & E). cbn [concat] in C, E. rewrite app_nil_r in C, E. exists bs, ws. eexists.
    split; [exact A|]. split; [exact B|]. split; [exact C|]. split; [|exact E].
    intros _ S. injection S as ->. apply report_success in RP; [exact RP|discriminate].
Qed.
Print Assumptions C88_ends.

(* ---- a concrete case: file 2 of C69's example, in both formats ---- *)
Definition ix_epoch (t : Z) : list N := text "2023-01-01T00:00:00 UTC".
Definition ix_span (t : Z) : list N := text "1 s".
Example C88_ex_text : exists got,
  info_process true (fun _ => JNull) (fun _ => JNull) ix_epoch ix_span [WAccept 5] Accepts dx_fs (fun _ => text "f.dat") 2 AsText true (InfoExits Success) got /\
  length (lines_of got) = 13%nat /\ nth_error (lines_of got) 5 = Some (text "APIDS:    7, 9") /\
  nth_error (lines_of got) 6 = Some (text "Count:    4") /\ nth_error (lines_of got) 7 = Some (text "Missing:  32766").
Proof.
  eexists. split.
  - eapply info_as_text; [vm_compute; reflexivity|reflexivity|]. unfold report_to_stdout. rewrite C85_reliable; [reflexivity|].
    split; [reflexivity|]. constructor; [right; exists 5%nat; split; [lia|reflexivity]|constructor].
  - repeat split; vm_compute; reflexivity.
Qed.
Example C88_ex_row : info_row ix_epoch 1289 (mkIsummary 12 3 (Some 5%Z) None 0%Z) =
  text "  1289            2023-01-01T00:00:00 UTC                                          12         3".
Proof. vm_compute. reflexivity. Qed.
Example C88_ex_plain : plain (text "f.dat") /\ (forall t, plain (ix_epoch t)) /\ (forall d, plain (ix_span d)).
Proof.
  assert (G : forall s, forallb (fun c => forallb (fun d => negb (d =? c)) [10; 34; 38; 39; 60; 61; 62; 96]) s = true -> plain s).
  { intros s H. unfold plain. apply Forall_forall. intros c I J. rewrite forallb_forall in H. apply H in I. rewrite forallb_forall in I.
    apply I in J. rewrite N.eqb_refl in J. discriminate. }
  split; [apply G; reflexivity|]. split; intros; apply G; reflexivity.
Qed.
