(* C84: the JSON reports read back. *)
From Coq Require Import String List Sorted.
From Verif Require Import Base S_Framing S_InfoTotals M_Reader M_Merge M_Packet M_Frame M_Cli M_Main M_Json S_Json S_Cli S_Group S_Main S_Report L_Json P_CliFrame P_CliInfo P_Main.
Open Scope N_scope.

(* Every value, written the way the reports are written, is read back as itself. *)
Theorem C84_read_back : forall v, read_json (pretty 0 v) = Some v.
Proof. exact read_pretty. Qed.
Print Assumptions C84_read_back.

Lemma fields_count : forall fs i extra before, tallies fs i ->
  (forall k, In k [text "total_frames"; text "total_bytes"; text "missing_frames"; text "ok"; text "corrected"; text "uncorrectable"; text "error"; text "not_performed"] ->
     forall l, lookup k (before ++ l) = lookup k l) ->
  counts_frames (JObj (before ++ finfo_fields i ++ extra)) fs.
Proof.
  intros fs i extra before (A & B & C & D & E & F & G & H) K. unfold counts_frames, member.
  rewrite !K by (cbn; tauto). rewrite <- A, <- B, <- C, <- D, <- E, <- F, <- G, <- H.
  repeat split; reflexivity.
Qed.

Lemma cmd_tallies : forall len keep_fill include exclude has_output frames sel all rows out,
  kept (chosen keep_fill include exclude) frames sel ->
  frame_cmd len keep_fill include exclude has_output frames = Val (all, rows, out) ->
  tallies sel all /\ StronglySorted N.lt (map fst rows) /\
  (forall v, In v (map fst rows) <-> exists f, In f sel /\ v_vcid (f_header f) = v) /\
  (forall v i, In (v, i) rows -> tallies (filter (fun f => v_vcid (f_header f) =? v) sel) i).
Proof.
  intros len keep_fill include exclude has_output frames sel all rows out K R.
  assert (L : has_output = true -> Forall (fun f => usable f -> len <= length (f_data f))%nat sel).
  { intros Ho. apply Forall_forall. intros f Hf U. destruct (Nat.le_gt_cases len (length (f_data f))) as [Y|Y]; [exact Y|].
    exfalso. assert (P : frame_cmd len keep_fill include exclude has_output frames = Panic).
    { apply C53_panics_iff. split; [exact Ho|]. exists f.
      assert (Q : In f frames /\ chosen keep_fill include exclude f).
      { clear - K Hf. induction K as [|x l k C K IH|x l k C K IH]; [destruct Hf| |].
        - destruct Hf as [->|Hf]; [split; [left; reflexivity|exact C]|]. destruct (IH Hf). split; [right|]; assumption.
        - destruct (IH Hf). split; [right|]; assumption. }
      destruct Q. auto. }
    rewrite P in R. discriminate. }
  destruct (C53_report len keep_fill include exclude has_output frames sel K L) as (all' & rows' & out' & E & T & SS & IN & RS & _).
  rewrite R in E. injection E as <- <- <-.
  split; [exact T|]. split; [exact SS|]. split; [exact IN|exact RS].
Qed.
(* [sel] are the frames that the options of the command choose. *)
Theorem C84_framing_summary : forall len keep_fill include exclude has_output frames sel all rows out,
  kept (chosen keep_fill include exclude) frames sel ->
  frame_cmd len keep_fill include exclude has_output frames = Val (all, rows, out) ->
  exists v, read_json (render_json_summary all rows) = Some v /\ frame_report sel v.
Proof.
  intros len keep_fill include exclude has_output frames sel all rows out K R.
  destruct (cmd_tallies _ _ _ _ _ _ _ _ _ _ K R) as (T & SS & IN & RS).
  exists (summary_json all rows). split; [apply read_pretty|]. unfold frame_report, summary_json. split.
  - apply (fields_count sel all _ []); [exact T|reflexivity].
  - exists (map fst rows). eexists. split; [reflexivity|]. split; [exact SS|]. split; [exact IN|].
    assert (G : forall l, (forall v i, In (v, i) l -> In (v, i) rows) ->
      Forall2 (fun x row => member "vcid" row = Some (JNum x) /\
                 counts_frames row (filter (fun f => v_vcid (f_header f) =? x) sel)) (map fst l)
        (map (fun r => JObj ((text "vcid", JNum (fst r)) :: finfo_fields (snd r))) l)).
    { induction l as [|[v i] l IH]; intros I; [constructor|]. cbn [map fst snd]. constructor.
      - split; [reflexivity|].
        pose proof (fields_count (filter (fun f => v_vcid (f_header f) =? v) sel) i [] [(text "vcid", JNum v)]
          (RS v i (I v i (or_introl eq_refl)))) as Q. rewrite app_nil_r in Q. apply Q.
        intros k Hk l'. cbn in Hk. repeat (destruct Hk as [<-|Hk]; [reflexivity|]). destruct Hk.
      - apply IH. intros. apply I. right. assumption. }
    apply G. auto.
Qed.
Print Assumptions C84_framing_summary.

Lemma json_describes : forall time_of je jd ps s missing, describes time_of ps s -> i_missing s = missing ->
  describes_packets time_of je jd (isummary_json je jd s) ps missing.
Proof.
  intros time_of je jd ps s missing (A & B & C & D) M. unfold describes_packets, isummary_json.
  rewrite <- B, <- C. rewrite <- A, <- M. repeat split; try reflexivity. cbn [member].
  change (Some (jd (i_duration s)) = Some (jd (match i_first s, i_last s with Some f, Some l => l - f | _, _ => 0 end)%Z)).
  rewrite D, B, C. reflexivity.
Qed.

(* The sequence numbers of read packets are below 16384 (C01). *)
Theorem C84_info_json : forall ovf time_of epoch span filename items all rows,
  Forall (fun p => sequence_id (p_header p) < 16384) (keep_ok items) ->
  summarize ovf time_of items = Val (all, rows) ->
  exists v, read_json (render_info_json epoch span filename all rows) = Some v /\
    info_report (tf time_of) epoch span filename (keep_ok items) v.
Proof.
  intros ovf time_of je jd filename items all rows H E.
  destruct (C52_info ovf time_of items H) as (all' & rows' & E' & D & M & SS & IN & RS).
  rewrite E in E'. injection E' as <- <-.
  eexists. split; [apply read_pretty|]. unfold info_report. split; [reflexivity|].
  exists (isummary_json je jd all), (map fst rows). eexists. split; [reflexivity|]. split; [reflexivity|].
  split; [exact SS|]. split; [exact IN|]. split.
  - assert (G : forall l, (forall v i, In (v, i) l -> In (v, i) rows) ->
      Forall2 (fun x row => exists o, row = JArr [JNum x; o] /\
                 describes_packets (tf time_of) je jd o (of_apid x (keep_ok items)) (gaps (of_apid x (keep_ok items))))
        (map fst l) (map (fun r => JArr [JNum (fst r); isummary_json je jd (snd r)]) l)).
    { induction l as [|[v i] l IH]; intros I; [constructor|]. cbn [map fst snd]. constructor.
      - eexists. split; [reflexivity|]. destruct (RS v i (I v i (or_introl eq_refl))) as [Q1 Q2].
        apply json_describes; assumption.
      - apply IH. intros. apply I. right. assumption. }
    apply G. auto.
  - apply json_describes; [exact D|]. rewrite M. unfold missing_sum, sumN.
    assert (G : forall l, (forall v i, In (v, i) l -> In (v, i) rows) ->
      fold_right N.add 0 (map (fun x => i_missing (snd x)) l) =
      fold_right N.add 0 (map (fun x => gaps (of_apid x (keep_ok items))) (map fst l))).
    { induction l as [|[v i] l IH]; intros I; [reflexivity|]. cbn [map fst snd fold_right].
      rewrite IH by (intros; apply I; right; assumption).
      destruct (RS v i (I v i (or_introl eq_refl))) as [_ Q2]. rewrite Q2. reflexivity. }
    apply G. auto.
Qed.
Print Assumptions C84_info_json.

(* ---- a concrete case ---- *)
(* the frames, what the options choose, the command on them and the text of its report *)
Definition js_frames : list frame :=
  [fr 3 0 None [1;2;3]; fr 63 0 None [0;0]; fr 9 0 (Some IOk) [7;7]; fr 1 4 (Some ICorrected) [5;6]; fr 3 1 (Some IUncorrectable) [8;9;10]].
Example C84_ex_kept : kept (chosen false [] [9]) js_frames
  [fr 3 0 None [1;2;3]; fr 1 4 (Some ICorrected) [5;6]; fr 3 1 (Some IUncorrectable) [8;9;10]].
Proof.
  unfold js_frames, chosen, wanted.
  apply kept_yes; [cbn; split; [discriminate|split; [auto|intros [C|[]]; discriminate]]|].
  apply kept_no; [cbn; intros [C _]; apply C; reflexivity|].
  apply kept_no; [cbn; intros [_ [_ C]]; apply C; auto|].
  apply kept_yes; [cbn; split; [discriminate|split; [auto|intros [C|[]]; discriminate]]|].
  apply kept_yes; [cbn; split; [discriminate|split; [auto|intros [C|[]]; discriminate]]|].
  constructor.
Qed.
Example C84_ex_run : frame_cmd 2 false [] [9] true js_frames =
  Val (mkFinfo 3 8 5 1 1 0 0 1, [(1, mkFinfo 1 2 4 1 0 0 0 0); (3, mkFinfo 2 6 1 0 1 0 0 1)], [1;2;5;6]).
Proof. vm_compute. reflexivity. Qed.
Definition NL : string := String (Ascii.ascii_of_N 10) "".
Definition QU : string := String (Ascii.ascii_of_N 34) "".
Fixpoint lines (l : list string) : string := match l with [] => "" | [s] => s | s :: l => s ++ NL ++ lines l end.
Definition field (k v : string) : string := QU ++ k ++ QU ++ ": " ++ v.
Example C84_ex_text : render_json_summary (mkFinfo 1 8 0 0 0 0 0 1) [(3, mkFinfo 1 8 0 0 0 0 0 1)] = text (lines
  ["{"; "  " ++ field "total_frames" "1,"; "  " ++ field "total_bytes" "8,"; "  " ++ field "missing_frames" "0,";
   "  " ++ field "corrected" "0,"; "  " ++ field "uncorrectable" "0,"; "  " ++ field "ok" "0,"; "  " ++ field "error" "0,";
   "  " ++ field "not_performed" "1,"; "  " ++ field "vcids" "["; "    {"; "      " ++ field "vcid" "3,";
   "      " ++ field "total_frames" "1,"; "      " ++ field "total_bytes" "8,"; "      " ++ field "missing_frames" "0,";
   "      " ++ field "corrected" "0,"; "      " ++ field "uncorrectable" "0,"; "      " ++ field "ok" "0,";
   "      " ++ field "error" "0,"; "      " ++ field "not_performed" "1"; "    }"; "  ]"; "}"])%string.
Proof. vm_compute. reflexivity. Qed.
(* an escape of each kind; numbers of several digits; empty and nested values *)
Example C84_ex_escape : pretty 0 (JObj [(text "a", JArr [JStr [9; 34; 92; 1; 31; 65; 233]; JNum 1024; JArr []; JNull])]) =
  text (lines ["{"; "  " ++ field "a" "["; "    " ++ QU ++ "\t\" ++ QU ++ "\\\u0001\u001fA"]%string) ++ [233] ++
  text (lines [QU ++ ","; "    1024,"; "    [],"; "    null"; "  ]"; "}"]%string).
Proof. vm_compute. reflexivity. Qed.
Example C84_ex_info : Forall (fun p => sequence_id (p_header p) < 16384) (keep_ok [Ok (in_pkt 9 16383 22000 true); Err (Io Interrupted); Ok (in_pkt 7 1 21999 true)]).
Proof. repeat constructor; reflexivity. Qed.
(* What is cut short is not read as something else. *)
Example C84_ex_cut : read_json (text "[1, 2") = None /\ read_json (text "[1, 2]") = Some (JArr [JNum 1; JNum 2]).
Proof. split; vm_compute; reflexivity. Qed.
