(* C85, C86: reports on standard output and in the file of --summary. *)
From Coq Require Import String List.
From Verif Require Import Base S_Framing M_Reader M_Packet M_Sync M_Frame M_ReedSolomon M_Pipeline M_Cli M_Main M_Write M_Json M_Stdout
  S_Json S_Cli S_Main S_Write S_Report S_Stdout L_Write L_Json L_Stdout P_CliFrame P_Main P_Main2 P_Json.
Open Scope N_scope.

(* ---- C85 ---- *)
(* A process that writes a text to standard output in any pieces: the beginning of the text arrives; if no write reported an
   error, at least all complete lines do, and all of the text unless the descriptor failed; an error that is reported is
   the descriptor's first. *)
Theorem C85_stdout : forall pieces evs fin st got, to_stdout pieces evs fin = (st, got) ->
  let t := concat pieces in
  beginning got t /\
  match st with
  | None => (exists l last, lines_and_rest t l last /\ beginning l got) /\ (got = t \/ exists k, first_failure evs fin k)
  | Some k => first_failure evs fin k
  end.
Proof.
  intros pieces evs fin st got E t. unfold to_stdout in E.
  destruct (line_writes pieces (mkLw [] (mkWriter evs fin []))) as [st' w] eqn:L. injection E as -> <-.
  apply lines_stepped in L; [|cbn; lia|intros []]. destruct L as ((F & G & H) & NI).
  cbn [lw_raw w_fin w_got w_evs total lw_buf app] in *.
  destruct (flush_buf w) as [st2 w2] eqn:Fl. apply flush_stepped in Fl. destruct Fl as ((F2 & G2 & H2) & B2). cbn [snd].
  assert (BT : beginning (w_got (lw_raw w2)) (total w)).
  { eapply beginning_trans; [exists (lw_buf w2); reflexivity|]. fold (total w2). destruct st2 as [k|].
    - destruct H2 as (H2 & _). rewrite app_nil_r in H2. exact H2.
    - destruct H2 as (H2 & _). rewrite app_nil_r in H2. rewrite H2. apply beginning_refl. }
  destruct st as [k|].
  - destruct H as (H & FF). cbn [total lw_raw w_got lw_buf app] in H. split; [|exact FF].
    eapply beginning_trans; eassumption.
  - destruct H as (H & FF). cbn [total lw_raw w_got lw_buf app] in H. rewrite H in BT. fold t in BT, H. split; [exact BT|]. split.
    + pose proof (split_spec t) as SP. destruct (split_lines t) as [[l last]|].
      * destruct SP as (SP & _). exists l, last. split; [exact SP|]. eapply beginning_trans; [|exact G2].
        unfold total in H. destruct SP as (Et & _ & [->|(l' & ->)]); [eexists; reflexivity|].
        specialize (NI eq_refl). rewrite Et in H.
        (* the newline is not in the buffer *)
        apply app_eq_app in H. destruct H as (d & [(H1 & _)|(H1 & H2')]); [exists d; exact H1|].
        destruct d as [|x d]; [rewrite app_nil_r in H1; rewrite H1; apply beginning_refl|].
        exfalso. apply NI. rewrite H2'. apply in_or_app. left.
        destruct (@exists_last _ (x :: d)) as (d' & z & Z); [discriminate|]. rewrite Z in *. rewrite app_assoc in H1.
        apply app_inj_tail in H1. destruct H1 as (_ & <-). apply in_or_app. right. left. reflexivity.
      * exists [], t. split; [split; [reflexivity|split; [exact SP|left; reflexivity]]|]. eexists. reflexivity.
    + destruct st2 as [k|].
      * right. exists k. destruct H2 as (_ & FF2). apply FF. exact FF2.
      * left. destruct H2 as (H2 & _). rewrite app_nil_r in H2. unfold total at 1 in H2. rewrite (B2 eq_refl), app_nil_r in H2. rewrite H2. exact H.
Qed.
Print Assumptions C85_stdout.

(* A text that ends with a newline: success means that all of it has arrived. *)
Theorem C85_ends_with_newline : forall pieces evs fin got t, to_stdout pieces evs fin = (None, got) ->
  concat pieces = t ++ [10] -> got = t ++ [10].
Proof.
  intros pieces evs fin got t E C. destruct (C85_stdout _ _ _ _ _ E) as ((r & B) & (l & last & (T & NI & _) & (d & D)) & _).
  assert (last = []).
  { destruct last as [|x y]; [reflexivity|]. exfalso. apply NI. rewrite C in T.
    destruct (@exists_last _ (x :: y)) as (b' & z & Z); [discriminate|]. rewrite Z in *. rewrite app_assoc in T. apply app_inj_tail in T.
    destruct T as (_ & ->). apply in_or_app. right. left. reflexivity. }
  subst last. rewrite app_nil_r in T. rewrite D, <- app_assoc in B. rewrite T in B.
  assert (H : d ++ r = []). { apply (app_inv_head l). rewrite app_nil_r. symmetry. exact B. }
  apply app_eq_nil in H. destruct H as (-> & ->). rewrite app_nil_r in D. rewrite D, <- T. exact C.
Qed.
Print Assumptions C85_ends_with_newline.

(* A descriptor that only cuts writes short or interrupts them gets everything. *)
Theorem C85_reliable : forall pieces evs fin, reliable evs fin -> to_stdout pieces evs fin = (None, concat pieces).
Proof.
  intros pieces evs fin R. destruct (to_stdout pieces evs fin) as [st got] eqn:E.
  destruct (C85_stdout _ _ _ _ _ E) as (_ & H). pose proof (reliable_no_failure _ _ R) as NF.
  destruct st as [k|]; [exfalso; exact (NF k H)|]. destruct H as (_ & [->|(k & H)]); [reflexivity|]. exfalso. exact (NF k H).
Qed.
Print Assumptions C85_reliable.

(* The last line, when it is not ended and shorter than the buffer, may be lost although every write succeeds. *)
Theorem C85_last_line_lost : forall pieces l last c, lines_and_rest (concat pieces) l last -> (length last < LINE_CAPACITY)%nat ->
  to_stdout pieces (room_evs (length l)) (Refuses c) = (None, l).
Proof.
  intros pieces l last c LR L. unfold to_stdout. change (mkLw [] _) with (roomy (length l) c [] []).
  rewrite (lines_room pieces (length l) c [] [] l last); [|cbn; lia|intros []|exact L|exact LR|reflexivity].
  destruct (flush_full c l last) as (st & ->). reflexivity.
Qed.
Print Assumptions C85_last_line_lost.

(* info --format json, whatever the file and however the formatter cuts its writes: on a full device it can report success
   although what has arrived is not JSON. *)
Theorem C85_info_json_cut_refuted : forall epoch span filename all rows pieces c,
  concat pieces = render_info_json epoch span filename all rows ->
  exists got, report_to_stdout pieces (room_evs (length got)) (Refuses c) = (Success, got) /\ read_json got = None.
Proof.
  intros epoch span filename all rows pieces c E. unfold render_info_json in E.
  match type of E with _ = pretty 0 (JObj (?kv :: ?l)) => destruct (object_cut kv l) as (t & P & R) end.
  rewrite P in E. exists (t ++ [10]). split; [|exact R].
  unfold report_to_stdout. rewrite (C85_last_line_lost pieces (t ++ [10]) [125] c); [reflexivity| |].
  - split; [rewrite E, <- app_assoc; reflexivity|]. split; [intros [C|[]]; discriminate|]. right. exists t. reflexivity.
  - unfold LINE_CAPACITY. cbn [length]. lia.
Qed.
Print Assumptions C85_info_json_cut_refuted.

(* ---- C86 ---- *)
Lemma command_some : forall ovf k nthreads creatable fs a x fs1 sm,
  framing_command ovf k nthreads creatable fs a x fs1 (Some sm) -> x = Success /\
  exists len p i e bs frames h out, framing_setup a = Some (len, p, i, e) /\ aget (fr_input a) fs = Some bs /\
    pipeline_start ovf k nthreads p (reader_of bs) frames /\
    frame_cmd len (fr_keep_fill a) i e h frames = Val (fst sm, snd sm, out).
Proof.
  intros ovf k nt creatable fs a x fs1 sm H.
  inversion H as [|len p i e bs frames all rows out HS GI EO PS FC|len p i e bs frames all rows out o HS GI EO CR NE PS FC|]; subst;
    (split; [reflexivity|]); exists len, p, i, e, bs, frames; eexists; exists out; cbn [fst snd]; repeat split; try eassumption.
Qed.

(* Success with --summary s: the frames are those of an execution of the pipeline on the input; the file s holds JSON that
   reads as the report on them, and every other file is as without --summary. *)
Theorem C86_summary_file : forall ovf k nthreads creatable text_report sevs sfin evs fin fs a s include exclude fs' got,
  stands_for (fr_include a) include -> stands_for (fr_exclude a) exclude ->
  framing_report ovf k nthreads creatable text_report sevs sfin evs fin fs a (Some s) Success fs' got ->
  exists len p i e bs frames sel fs1 sm json v,
    framing_setup a = Some (len, p, i, e) /\ aget (fr_input a) fs = Some bs /\
    pipeline_start ovf k nthreads p (reader_of bs) frames /\ kept (looked_at a include exclude) frames sel /\
    framing_command ovf k nthreads creatable fs a Success fs1 (Some sm) /\
    only_written fs1 s json fs' /\ read_json json = Some v /\ frame_report sel v.
Proof.
  intros ovf k nt creatable tr sevs sfin evs fin fs a s include exclude fs' got SI SE H.
  inversion H as [| |x1 fs1 all rows s1 FC E|x1 fs1 all rows s1 e1 w FC E CR W|x1 fs1 all rows s1 w ex g FC E CR W RS]; subst; try discriminate.
  injection E as <-. pose proof FC as FC0. apply command_some in FC. destruct FC as (-> & len & p & i & e & bs & frames & h & out & HS & GI & PS & FR).
  cbn [fst snd] in FR. apply write_all_spec in W. destruct W as (_ & W & _). cbn [w_got app] in W.
  destruct (setup_inv _ _ _ _ _ HS) as (i0 & e0 & P1 & P2 & -> & -> & NZ & _).
  rewrite (stands_parse _ _ SI) in P1. injection P1 as <-. rewrite (stands_parse _ _ SE) in P2. injection P2 as <-.
  pose proof (kept_filter _ _ _ (selected_chosen (fr_keep_fill a) (to_u16s include) (to_u16s exclude)) frames) as K.
  set (sel := filter _ frames) in K.
  destruct (C84_framing_summary _ _ _ _ _ _ _ _ _ _ K FR) as (v & RJ & RP).
  exists len, p, (to_u16s include), (to_u16s exclude), bs, frames, sel, fs1, (all, rows), (render_json_summary all rows), v.
  split; [exact HS|]. split; [exact GI|]. split; [exact PS|]. split.
  { eapply kept_ext; [|exact K]. intros f If. pose proof (pipeline_vcid_small _ _ _ _ _ _ PS) as SM. rewrite Forall_forall in SM. specialize (SM f If).
    unfold looked_at, chosen. rewrite wanted_accepted by (cbn in SM; lia). reflexivity. }
  split; [exact FC0|]. split; [rewrite W; apply only_written_aset|]. split; [exact RJ|exact RP].
Qed.
Print Assumptions C86_summary_file.

(* All the ways the command can end with --summary s. What standard output gets when the summary was written is C85's. *)
Theorem C86_outcomes : forall ovf k nthreads creatable text_report sevs sfin evs fin fs a s x fs' got,
  framing_report ovf k nthreads creatable text_report sevs sfin evs fin fs a (Some s) x fs' got ->
  (exists x1, framing_command ovf k nthreads creatable fs a x1 fs' None /\ x = Failure /\ got = []) \/
  exists fs1 sm, framing_command ovf k nthreads creatable fs a Success fs1 (Some sm) /\
    (forall q, q <> s -> aget q fs' = aget q fs1) /\
    let json := render_json_summary (fst sm) (snd sm) in
    ((creatable s = false /\ x = Failure /\ got = [] /\ fs' = fs1) \/
     (exists l b rest e, json = l ++ b :: rest /\ aget s fs' = Some l /\ first_failure sevs sfin e /\ x = Failure /\ got = []) \/
     (aget s fs' = Some json /\ exists st, to_stdout [text_report (fst sm) (snd sm)] evs fin = (st, got) /\ (x = Success <-> st = None))).
Proof.
  intros ovf k nt creatable tr sevs sfin evs fin fs a s x fs' got H.
  inversion H as [x1 fs1 FC|x1 fs1 all rows ex g FC E RS|x1 fs1 all rows s1 FC E CR|x1 fs1 all rows s1 e1 w FC E CR W|x1 fs1 all rows s1 w ex g FC E CR W RS]; subst; try discriminate.
  - left. exists x1. auto.
  - injection E as <-. pose proof (proj1 (command_some _ _ _ _ _ _ _ _ _ FC)) as ->. right. exists fs', (all, rows). split; [exact FC|]. split; [auto|]. left. auto.
  - injection E as <-. pose proof (proj1 (command_some _ _ _ _ _ _ _ _ _ FC)) as ->. right. exists fs1, (all, rows). split; [exact FC|].
    destruct (only_written_aset fs1 s (w_got w)) as (A & B). split; [exact B|]. right. left. cbn [fst snd].
    apply write_all_spec in W. destruct W as (_ & (l & b & rest & C & D) & FF). cbn [w_got w_evs w_fin app] in *.
    exists l, b, rest, e1. rewrite A, D. auto.
  - injection E as <-. pose proof (proj1 (command_some _ _ _ _ _ _ _ _ _ FC)) as ->. right. exists fs1, (all, rows). split; [exact FC|].
    destruct (only_written_aset fs1 s (w_got w)) as (A & B). split; [exact B|]. right. right. cbn [fst snd].
    apply write_all_spec in W. destruct W as (_ & C & _). cbn [w_got app] in C. split; [rewrite A, C; reflexivity|].
    unfold report_to_stdout in RS. destruct (to_stdout [tr all rows] evs fin) as [st g]. injection RS as <- <-.
    exists st. split; [reflexivity|]. destruct st; split; intros; congruence || discriminate.
Qed.
Print Assumptions C86_outcomes.

(* The file of --summary may be the output file (here 2) or the input file (here 1): neither is refused, the command succeeds,
   and what the file held, or would hold without --summary, is gone. *)
Theorem C86_same_file_refuted : forall k nthreads text_report s, s = 1 \/ s = 2 ->
  exists fs1 sm fs' got json,
    framing_command true k nthreads (fun _ => true) fx_fs (fx_args None None) Success fs1 (Some sm) /\
    aget s fs1 = Some (if s =? 1 then ASM ++ fx_frame 3 ++ ASM ++ fx_frame 63 else fx_frame 3) /\
    framing_report true k nthreads (fun _ => true) text_report [] Accepts [] Accepts fx_fs (fx_args None None) (Some s) Success fs' got /\
    aget s fs' = Some json /\ (exists v, read_json json = Some v /\ member "total_frames" v = Some (JNum 1)) /\ aget s fs' <> aget s fs1.
Proof.
  intros k nt tr s HS. destruct (C59_ex k nt) as (all & rows & FC & T1).
  set (fs1 := [(1, ASM ++ fx_frame 3 ++ ASM ++ fx_frame 63); (2, fx_frame 3)]) in *.
  set (json := render_json_summary all rows).
  exists fs1, (all, rows), (aset s json fs1), (tr all rows), json.
  split; [exact FC|]. split; [destruct HS as [-> | ->]; reflexivity|]. split.
  - change (aset s json fs1) with (aset s (w_got (mkWriter [] Accepts json)) fs1).
    eapply report_written; [exact FC|reflexivity|reflexivity| |].
    + change (write_all (render_json_summary all rows) (mkWriter [] Accepts [])) with
        (let '(got, st, es) := write_all_evs json [] Accepts in (st, mkWriter es Accepts ([] ++ got))).
      assert (E : write_all_evs json [] Accepts = (json, None, [])) by (unfold json; reflexivity). rewrite E. reflexivity.
    + unfold report_to_stdout. rewrite C85_reliable by (split; [reflexivity|constructor]). cbn [concat]. rewrite app_nil_r. reflexivity.
  - destruct (only_written_aset fs1 s json) as (A & _). rewrite A. split; [reflexivity|]. split.
    + exists (summary_json all rows). split; [apply read_pretty|]. unfold summary_json, finfo_fields. rewrite T1. reflexivity.
    + destruct HS as [-> | ->]; intros C; injection C as C; discriminate C.
Qed.
Print Assumptions C86_same_file_refuted.

(* ---- concrete cases ---- *)
(* a line of 3 bytes and a rest of 2, in three pieces, to a descriptor that cuts writes short, and to one with room for 3 *)
Example C85_ex : to_stdout [[65]; [66; 10; 67]; [68]] [WAccept 1; WFail Interrupted; WAccept 1] Accepts = (None, [65; 66; 10; 67; 68]) /\
  to_stdout [[65]; [66; 10; 67]; [68]] (room_evs 3) (Refuses 28) = (None, [65; 66; 10]) /\
  to_stdout [[65]; [66; 10; 67]; [68]] (room_evs 2) (Refuses 28) = (Some (OtherIo 28), [65; 66]) /\
  (* what a failed write left in the buffer is tried again at the end *)
  to_stdout [[65]; [66; 10; 67]; [68]] [WFail (OtherIo 5)] Accepts = (Some (OtherIo 5), [65; 66; 10]).
Proof. repeat split; vm_compute; reflexivity. Qed.
Example C85_ex_lines : lines_and_rest (concat [[65]; [66; 10; 67]; [68]]) [65; 66; 10] [67; 68].
Proof. split; [reflexivity|]. split; [intros [C|[C|[]]]; discriminate|]. right. exists [65; 66]. reflexivity. Qed.
(* no room for the summary: failure, nothing on standard output, but the output is there *)
Example C86_ex : forall k nthreads text_report, exists all rows,
  framing_report true k nthreads (fun _ => true) text_report [WAccept 1] (Refuses 28) [] Accepts fx_fs (fx_args None None) (Some 3) Failure
    [(1, ASM ++ fx_frame 3 ++ ASM ++ fx_frame 63); (2, fx_frame 3); (3, firstn 1 (render_json_summary all rows))] [].
Proof.
  intros k nt tr. destruct (C59_ex k nt) as (all & rows & FC & T1). exists all, rows.
  change [(1, ASM ++ fx_frame 3 ++ ASM ++ fx_frame 63); (2, fx_frame 3); (3, firstn 1 (render_json_summary all rows))] with
    (aset 3 (w_got (mkWriter [] (Refuses 28) (firstn 1 (render_json_summary all rows)))) [(1, ASM ++ fx_frame 3 ++ ASM ++ fx_frame 63); (2, fx_frame 3)]).
  eapply report_not_written; [exact FC|reflexivity|reflexivity|]. reflexivity.
Qed.
Example C86_ex_ranges : stands_for (fr_include (fx_args None None)) [3] /\ stands_for (fr_exclude (fx_args None None)) [].
Proof.
  split; unfold stands_for; cbn [fr_include fr_exclude fx_args].
  - exists [[3]]. split; [|reflexivity]. constructor; [|constructor]. left. split; [split; [discriminate|repeat constructor; lia]|].
    split; [reflexivity|]. reflexivity.
  - exists []. split; [constructor|reflexivity].
Qed.
