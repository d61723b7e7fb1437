(* C87: the text reports read back. *)
From Coq Require Import String List Permutation Sorted.
From Verif Require Import Base S_Diff S_Framing M_Reader M_Packet M_Merge M_Frame M_ReedSolomon M_Pipeline M_Cli M_Main M_Write M_Json M_Stdout M_Text
  S_Json S_Packet S_Merge S_Cli S_Main S_Write S_Stdout S_Text S_Report L_Json L_Stdout L_Text L_Packet L_Merge P_CliFilter P_CliDiff P_CliDiff2 P_CliFrame P_Json P_Main P_Main2 P_Stdout.
Open Scope N_scope.

(* ---- framing ---- *)
Ltac cl := repeat match goal with
  | |- clean (dec _) => apply dec_clean
  | |- clean (decZ _) => apply decZ_clean
  | |- clean (pad _ _) => apply pad_clean
  | |- clean (repeat _ _) => apply repeat_clean; discriminate
  | |- clean (_ ++ _) => apply app_clean
  | |- clean _ => first [assumption | apply clean_b; reflexivity]
  end.
Lemma words_label : forall k n, shows (repeat 32 k ++ dec n) n.
Proof.
  intros k n. exists (dec n). split; [|apply dec_number]. unfold words_of. rewrite words_blank.
  pose proof (words_pad_last 0 (dec n) (dec_wordy n)) as E. exact E.
Qed.
Lemma words_label_blank : forall k n, shows (repeat 32 k ++ dec n ++ [32]) n.
Proof.
  intros k n. exists (dec n). split; [|apply dec_number]. unfold words_of. rewrite words_blank.
  pose proof (words_pad 0 (dec n) [] (dec_wordy n)) as E. exact E.
Qed.
Lemma head_clean : forall all, Forall clean (text_head all).
Proof.
  intros all. unfold text_head. repeat (constructor; [cl|]). constructor.
Qed.
Lemma row_clean : forall v i, clean (text_row v i).
Proof. intros v i. unfold text_row. cl. Qed.

(* The lines of the text report: twelve, of which the second to the ninth are a label and a total, and then one for each
   vcid, in columns that have the width 4 and eight times 12 as long as the numbers are below 10^4 and 10^12. *)
Theorem C87_framing_text : forall all rows, exists head body,
  lines_of (text_summary all rows) = head ++ body /\ length head = 12%nat /\ framing_heading head /\
  Forall2 (fun (x : string * N) line => exists s, line = text (fst x) ++ s /\ shows s (snd x))
    [("Frames:", fi_total_frames all); ("Bytes:", fi_total_bytes all); ("Missing:", fi_missing all); ("Corrected:", fi_corrected all);
     ("Uncorrectable:", fi_uncorrectable all); ("Ok:", fi_ok all); ("Error:", fi_error all); ("NotPerformed:", fi_not_performed all)]%string
    (firstn 8 (tl head)) /\
  Forall2 (fun r line => let i := snd r in
      let numbers := [fi_total_frames i; fi_total_bytes i; fi_missing i; fi_corrected i; fi_uncorrectable i; fi_ok i; fi_error i; fi_not_performed i] in
      fst r < 10 ^ 4 -> Forall (fun n => n < 10 ^ 12) numbers ->
      length line = 100%nat /\ Forall2 shows (cells (4 :: repeat 12 8)%nat line) (fst r :: numbers)) rows body.
Proof.
  intros all rows. exists (text_head all), (map (fun r => text_row (fst r) (snd r)) rows).
  split.
  { unfold text_summary. apply lines_newline. apply Forall_app. split; [apply head_clean|].
    apply Forall_map, Forall_forall. intros r _. apply row_clean. }
  split; [reflexivity|]. split; [repeat (split; [reflexivity|]); reflexivity|]. split.
  { cbn [text_head tl firstn].
    constructor; [exists (repeat 32 8 ++ dec (fi_total_frames all)); split; [reflexivity|apply words_label]|].
    constructor; [exists (repeat 32 9 ++ dec (fi_total_bytes all) ++ [32]); split; [reflexivity|apply words_label_blank]|].
    constructor; [exists (repeat 32 7 ++ dec (fi_missing all)); split; [reflexivity|apply words_label]|].
    constructor; [exists (repeat 32 5 ++ dec (fi_corrected all)); split; [reflexivity|apply words_label]|].
    constructor; [exists (repeat 32 1 ++ dec (fi_uncorrectable all)); split; [reflexivity|apply words_label]|].
    constructor; [exists (repeat 32 12 ++ dec (fi_ok all)); split; [reflexivity|apply words_label]|].
    constructor; [exists (repeat 32 9 ++ dec (fi_error all)); split; [reflexivity|apply words_label]|].
    constructor; [exists (repeat 32 2 ++ dec (fi_not_performed all)); split; [reflexivity|apply words_label]|].
    constructor. }
  induction rows as [|[v i] rows IH]; [constructor|]. cbn [map]. constructor; [|exact IH].
  clear IH. cbn [fst snd]. intros V F.
  assert (P4 : length (pad 4 (dec v)) = 4%nat) by (apply pad_fits, dec_length; [exact V|lia]).
  assert (P12 : forall n, n < 10 ^ 12 -> length (pad 12 (dec n)) = 12%nat) by (intros n Hn; apply pad_fits, dec_length; [exact Hn|lia]).
  repeat (let X := fresh "X" in apply Forall_cons_iff in F; destruct F as (X & F); apply P12 in X).
  unfold text_row. split; [rewrite !app_length; rewrite P4; repeat match goal with H : length _ = 12%nat |- _ => rewrite H; clear H end; reflexivity|].
  cbn [repeat]. repeat (rewrite cells_app by assumption). rewrite cells_last by assumption.
  repeat (constructor; [apply shows_pad|]). constructor.
Qed.
Print Assumptions C87_framing_text.

(* The framing command with this text: success means that all of it has arrived on standard output. *)
Theorem C87_framing_stdout : forall ovf k nthreads creatable sevs sfin evs fin fs a sum_path fs' got,
  framing_report ovf k nthreads creatable text_summary sevs sfin evs fin fs a sum_path Success fs' got ->
  exists fs1 sm, framing_command ovf k nthreads creatable fs a Success fs1 (Some sm) /\ got = text_summary (fst sm) (snd sm).
Proof.
  intros ovf k nt creatable sevs sfin evs fin fs a sum_path fs' got H.
  assert (G : forall all rows, report_to_stdout [text_summary all rows] evs fin = (Success, got) -> got = text_summary all rows).
  { intros all rows R. unfold report_to_stdout in R. destruct (to_stdout [text_summary all rows] evs fin) as [[e|] g] eqn:E; [discriminate|].
    injection R as <-. assert (E0 : concat [text_summary all rows] = text_summary all rows) by (cbn [concat]; apply app_nil_r).
    destruct (newline_ends (text_head all ++ map (fun r => text_row (fst r) (snd r)) rows)) as (t & T); [discriminate|].
    fold (text_summary all rows) in T. rewrite T. eapply C85_ends_with_newline; [exact E|]. rewrite E0. exact T. }
  inversion H as [|x1 fs1 all rows ex g FC E RS|x1 fs1 all rows s1 FC E CR|x1 fs1 all rows s1 e1 w FC E CR W|x1 fs1 all rows s1 w ex g FC E CR W RS]; subst;
    destruct (command_some _ _ _ _ _ _ _ _ _ FC) as (-> & _); eexists; exists (all, rows); (split; [exact FC|]); apply G; exact RS.
Qed.
Print Assumptions C87_framing_stdout.

(* The framing command that reports success: the frames are those of an execution of the pipeline on the input, the lines on
   standard output are about those of them that the options choose. A row has columns of the widths 4 and eight times 12 as
   long as its numbers are below 10^12. *)
Theorem C87_framing_report : forall ovf k nthreads creatable sevs sfin evs fin fs a sum_path include exclude fs' got,
  stands_for (fr_include a) include -> stands_for (fr_exclude a) exclude ->
  framing_report ovf k nthreads creatable text_summary sevs sfin evs fin fs a sum_path Success fs' got ->
  exists len p i e bs frames sel head body vcids,
    framing_setup a = Some (len, p, i, e) /\ aget (fr_input a) fs = Some bs /\
    pipeline_start ovf k nthreads p (reader_of bs) frames /\ kept (looked_at a include exclude) frames sel /\
    lines_of got = head ++ body /\ length head = 12%nat /\ framing_heading head /\
    Forall2 (fun (x : string * N) line => exists s, line = text (fst x) ++ s /\ shows s (snd x)) (frame_totals sel) (firstn 8 (tl head)) /\
    StronglySorted N.lt vcids /\ (forall v, In v vcids <-> exists f, In f sel /\ v_vcid (f_header f) = v) /\
    Forall2 (fun v line => let numbers := map snd (frame_totals (filter (fun f => v_vcid (f_header f) =? v) sel)) in
      Forall (fun n => n < 10 ^ 12) numbers ->
      length line = 100%nat /\ Forall2 shows (cells (4 :: repeat 12 8)%nat line) (v :: numbers)) vcids body.
Proof.
  intros ovf k nt creatable sevs sfin evs fin fs a sum_path include exclude fs' got SI SE H.
  destruct (C87_framing_stdout _ _ _ _ _ _ _ _ _ _ _ _ _ H) as (fs1 & [all rows] & FC & ->). cbn [fst snd].
  apply command_some in FC. destruct FC as (_ & len & p & i & e & bs & frames & h & out & HS & GI & PS & FR). cbn [fst snd] in FR.
  destruct (setup_inv _ _ _ _ _ HS) as (i0 & e0 & P1 & P2 & -> & -> & NZ & _).
  rewrite (stands_parse _ _ SI) in P1. injection P1 as <-. rewrite (stands_parse _ _ SE) in P2. injection P2 as <-.
  pose proof (kept_filter _ _ _ (selected_chosen (fr_keep_fill a) (to_u16s include) (to_u16s exclude)) frames) as K.
  set (sel := filter _ frames) in K.
  destruct (cmd_tallies _ _ _ _ _ _ _ _ _ _ K FR) as (T & SS & IN & RS).
  destruct (C87_framing_text all rows) as (head & body & LN & LH & FH & HD & BD).
  pose proof (pipeline_vcid_small _ _ _ _ _ _ PS) as SM. rewrite Forall_forall in SM.
  exists len, p, (to_u16s include), (to_u16s exclude), bs, frames, sel, head, body, (map fst rows).
  split; [exact HS|]. split; [exact GI|]. split; [exact PS|]. split.
  { eapply kept_ext; [|exact K]. intros f If. specialize (SM f If).
    unfold looked_at, chosen. rewrite wanted_accepted by (cbn in SM; lia). reflexivity. }
  split; [exact LN|]. split; [exact LH|]. split; [exact FH|]. split.
  { destruct T as (A & B & C & D & E & F & G & I). unfold frame_totals. rewrite <- A, <- B, <- C, <- D, <- E, <- F, <- G, <- I. exact HD. }
  split; [exact SS|]. split; [exact IN|].
  assert (VS : forall v j, In (v, j) rows -> v < 64).
  { intros v j I. apply (in_map fst) in I. apply IN in I. cbn [fst] in I. destruct I as (f & I & <-). apply SM. unfold sel in I. apply filter_In in I. apply I. }
  clear - RS VS BD. revert RS VS. induction BD as [|[v j] line rows body R BD IH]; intros RS VS; [constructor|]. cbn [map fst].
  constructor; [|apply IH; [intros; apply RS; right; assumption|intros v0 j0 I0; apply (VS v0 j0); right; exact I0]].
  cbn [fst snd] in R. destruct (RS v j (or_introl eq_refl)) as (A & B & C & D & E & F & G & I).
  unfold frame_totals. cbn [map snd]. rewrite <- A, <- B, <- C, <- D, <- E, <- F, <- G, <- I. intros Q. apply R; [|exact Q].
  specialize (VS v j (or_introl eq_refl)). lia.
Qed.
Print Assumptions C87_framing_report.

(* ---- diff ---- *)
Lemma count_line_says : forall ovf a l r,
  match count_line ovf a l r with
  | Some line => count_says line a l r /\ clean line
  | None => ovf = true /\ (2 ^ 31 <= l \/ 2 ^ 31 <= r)
  end.
Proof.
  intros ovf a l r. unfold count_line. destruct (sub_i32 ovf (as_i32 l) (as_i32 r)) as [d|] eqn:E.
  - split.
    + exists (dec a), (dec l), (dec r), (decZ d), d. change (text "  ") with [32; 32]. cbn [app].
      rewrite !words_pad by apply dec_wordy. rewrite words_skip, words_pad by apply dec_wordy.
      rewrite words_skip, words_pad by apply dec_wordy. rewrite words_skip, words_pad_last by apply decZ_wordy.
      split; [reflexivity|]. split; [apply dec_number|]. split; [apply dec_number|]. split; [apply dec_number|].
      split; [apply decZ_integer|]. eapply sub_i32_spec. exact E.
    + cl.
  - unfold sub_i32 in E. destruct (_ && _) eqn:C; [discriminate|]. destruct ovf; [|discriminate]. split; [reflexivity|].
    destruct (N.lt_ge_cases l (2 ^ 31)) as [L|L]; [|left; exact L]. destruct (N.lt_ge_cases r (2 ^ 31)) as [R|R]; [|right; exact R]. exfalso.
    rewrite !as_i32_small in C by assumption. apply andb_false_iff in C. rewrite Z.leb_gt, Z.ltb_ge in C.
    assert (Z.of_N l < 2 ^ 31)%Z by (change (2 ^ 31)%Z with (Z.of_N (2 ^ 31)); lia).
    assert (Z.of_N r < 2 ^ 31)%Z by (change (2 ^ 31)%Z with (Z.of_N (2 ^ 31)); lia). lia.
Qed.
(* A row of the counts, when both are below 2^31: the apid, both numbers and their difference, whatever the build. *)
Theorem C87_counts_exact : forall ovf a l r, l < 2 ^ 31 -> r < 2 ^ 31 ->
  exists line wa wl wr wd, count_line ovf a l r = Some line /\ words_of line = [wa; wl; wr; wd] /\
    is_number wa a /\ is_number wl l /\ is_number wr r /\ is_integer wd (Z.of_N l - Z.of_N r).
Proof.
  intros ovf a l r L R. pose proof (count_line_says ovf a l r) as H. destruct (count_line ovf a l r) as [line|]; [|lia].
  destruct H as ((wa & wl & wr & wd & d & W & A & B & C & D & (E1 & E2) & F) & _).
  exists line, wa, wl, wr, wd. split; [reflexivity|]. split; [exact W|]. split; [exact A|]. split; [exact B|]. split; [exact C|].
  replace (Z.of_N l - Z.of_N r)%Z with d; [exact D|].
  assert (Z.of_N l < 2 ^ 31)%Z by (change (2 ^ 31)%Z with (Z.of_N (2 ^ 31)); lia).
  assert (Z.of_N r < 2 ^ 31)%Z by (change (2 ^ 31)%Z with (Z.of_N (2 ^ 31)); lia).
  apply Z.mod_divide in F; [|lia]. destruct F as (q & F). assert (q = 0)%Z by lia. lia.
Qed.
Print Assumptions C87_counts_exact.
(* Beyond that the difference may be wrong, or the command panics in a build that checks overflow. *)
Theorem C87_difference_refuted : forall a,
  (forall ovf, exists line wa wl wr, count_line ovf a (2 ^ 32) 0 = Some line /\ words_of line = [wa; wl; wr; text "0"] /\ is_number wl (2 ^ 32) /\ is_number wr 0) /\
  count_line true a (2 ^ 31) 1 = None.
Proof.
  intros a. split; [|reflexivity]. intros ovf. eexists. exists (dec a), (dec (2 ^ 32)), (dec 0). split.
  - unfold count_line. change (sub_i32 ovf (as_i32 (2 ^ 32)) (as_i32 0)) with (Some 0%Z). reflexivity.
  - change (text "  ") with [32; 32]. cbn [app].
    rewrite !words_pad by apply dec_wordy. rewrite words_skip, words_pad by apply dec_wordy.
    rewrite words_skip, words_pad by apply dec_wordy. rewrite words_skip, words_pad_last by apply decZ_wordy.
    split; [reflexivity|]. split; apply dec_number.
Qed.
Print Assumptions C87_difference_refuted.

Lemma count_lines_say : forall ovf counts ls, count_lines ovf counts = (ls, false) ->
  Forall2 (fun (c : N * (N * N)) line => count_says line (fst c) (fst (snd c)) (snd (snd c))) counts ls /\ Forall clean ls.
Proof.
  intros ovf. induction counts as [|[a [l r]] counts IH]; intros ls E; cbn [count_lines] in E.
  - injection E as <-. split; constructor.
  - pose proof (count_line_says ovf a l r) as H. destruct (count_line ovf a l r) as [s|]; [|discriminate].
    destruct (count_lines ovf counts) as [ls' p]. injection E as <- ->. destruct (IH ls' eq_refl) as (A & B). destruct H.
    split; constructor; assumption.
Qed.
Definition key_fits (k : key) : Prop := let '(a, s, c) := k in a < 2048 /\ s < 16384 /\ c < 2 ^ 32.
Lemma key_text_shows : forall a s c, key_fits (a, s, c) -> entry_shows (key_text (a, s, c)) a s c.
Proof.
  intros a s c (A & B & C).
  assert (LA : length (pad 4 (dec a)) = 4%nat) by (apply pad_fits, dec_length; [change (10 ^ N.of_nat 4) with 10000; lia|lia]).
  assert (LS : length (pad 6 (dec s)) = 6%nat) by (apply pad_fits, dec_length; [change (10 ^ N.of_nat 6) with 1000000; lia|lia]).
  assert (LC : length (pad 10 (dec c)) = 10%nat).
  { apply pad_fits, dec_length; [change (10 ^ N.of_nat 10) with 10000000000; change (2 ^ 32) with 4294967296 in C; lia|lia]. }
  unfold entry_shows, key_text. split.
  - rewrite !app_length, LA, LS, LC. reflexivity.
  - exists (pad 4 (dec a)), (pad 6 (dec s)), (pad 10 (dec c)). split; [|repeat split; apply shows_pad].
    rewrite cells_app by reflexivity. rewrite cells_app by exact LA. rewrite cells_app by reflexivity. rewrite cells_app by exact LS.
    rewrite cells_app by reflexivity. rewrite cells_app by exact LC. rewrite cells_last by reflexivity. reflexivity.
Qed.
Lemma row_line_says : forall side a s c, key_fits (a, s, c) -> row_says (row_line (side, (a, s, c))) side a s c.
Proof.
  intros side a s c F. pose proof (key_text_shows a s c F) as E. unfold row_line, row_says. cbn [fst snd].
  assert (L37 : length (key_text (a, s, c)) = 37%nat) by apply E. remember (key_text (a, s, c)) as e eqn:Ee. clear Ee.
  destruct side.
  - split; [rewrite !app_length, L37; reflexivity|]. exists e, no_key. split; [|split; [exact E|reflexivity]].
    rewrite cells_app by exact L37. rewrite cells_app by reflexivity. rewrite cells_last by reflexivity. reflexivity.
  - split; [rewrite !app_length, L37; reflexivity|]. exists no_key, e. split; [|split; [reflexivity|exact E]].
    rewrite cells_app by reflexivity. rewrite cells_app by reflexivity. rewrite cells_last by exact L37. reflexivity.
Qed.
Lemma row_line_clean : forall r, clean (row_line r).
Proof.
  intros [side [[a s] c]]. unfold row_line, key_text, no_key. cbn [fst snd].
  destruct side; cl.
Qed.
Definition olist {A} (o : option A) : list A := match o with Some x => [x] | None => [] end.
Lemma hd_tl_in : forall A (l : list A) x, In x (olist (hd_error l) ++ tl l) <-> In x l.
Proof. intros A [|y l] x; cbn; tauto. Qed.
Lemma diff_rows_in : forall fuel cl l cr r rows, diff_rows fuel cl l cr r = Some rows ->
  forall x, In x rows -> In (snd x) (olist cl ++ l) \/ In (snd x) (olist cr ++ r).
Proof.
  induction fuel as [|fuel IH]; intros cl l cr r rows E x X; [discriminate|]. cbn [diff_rows] in E.
  destruct cl as [kl|].
  - destruct cr as [kr|].
    + destruct (key_cmp kl kr).
      * destruct (IH _ _ _ _ _ E x X) as [H|H]; rewrite hd_tl_in in H; [left|right]; cbn; auto.
      * destruct (diff_rows fuel (hd_error l) (tl l) (Some kr) r) as [rs|] eqn:E2; [|discriminate]. injection E as <-. destruct X as [<-|X]; [left; left; reflexivity|].
        destruct (IH _ _ _ _ _ E2 x X) as [H|H]; [rewrite hd_tl_in in H; left; right; exact H|right; exact H].
      * destruct (diff_rows fuel (Some kl) l (hd_error r) (tl r)) as [rs|] eqn:E2; [|discriminate]. injection E as <-. destruct X as [<-|X]; [right; left; reflexivity|].
        destruct (IH _ _ _ _ _ E2 x X) as [H|H]; [left; exact H|rewrite hd_tl_in in H; right; right; exact H].
    + injection E as <-. apply in_map_iff in X. destruct X as (k & <- & X). left. right. exact X.
  - injection E as <-. apply in_map_iff in X. destruct X as (k & <- & X). right. apply in_or_app. right. exact X.
Qed.

(* The diff command on two files of packets, when it does not panic: what arrives on standard output are, with --verbose, three
   lines of heading, a line for each of the counts and an empty line; then six lines with the file names and a heading; then a line for each difference found, which says on
   which side it is and what it is. The exit status tells whether there are such lines. [csum] is a checksum of 32 bits; the
   file names have no newline. *)
Theorem C87_diff_text : forall ovf csum evs fin fs verbose names left right bl br wl wr x got,
  aget left fs = Some bl -> aget right fs = Some br -> file_holds bl wl -> file_holds br wr -> wl <> [] \/ wr <> [] ->
  (forall b, csum b < 2 ^ 32) -> ~ In 10 (names left) -> ~ In 10 (names right) ->
  diff_process ovf csum evs fin fs verbose names left right (DiffExits x) got ->
  exists counts rows r title cls banner body,
    diff_command csum fs verbose left right = Val (Some (Some (counts, rows), r)) /\
    lines_of got = (match counts with Some _ => title ++ cls ++ [[]] | None => [] end) ++ banner ++ body /\
    title = [text "Apid counts:"; text "APID  Left      Right     Diff"; text "====  ========  ========  ========"] /\
    banner = [[]; text "left:  " ++ names left; text "right: " ++ names right; [];
      text "Present in left, but not right         Present in right, but not left";
      text "=====================================  ==================================="] /\
    (counts <> None <-> verbose = true) /\
    match counts with
    | Some c => Forall2 (fun (c : N * (N * N)) line => count_says line (fst c) (fst (snd c)) (snd (snd c))) c cls
    | None => True
    end /\
    Forall2 (fun (d : bool * key) line => let '(side, (a, s, c)) := d in row_says line side a s c) rows body /\
    (x = Success <-> body = []) /\ (x = Success <-> r = DiffOk).
Proof.
  intros ovf csum evs fin fs verbose names left right bl br wl wr x got GL GR FL FR NE CS N1 N2 H.
  assert (DC : exists counts rows r, diff_command csum fs verbose left right = Val (Some (Some (counts, rows), r)) /\ Forall (fun d => key_fits (snd d)) rows /\ (r = DiffOk <-> rows = []) /\ (counts <> None <-> verbose = true)).
  { assert (KF : forall ws, Forall wire_ok ws -> Forall key_fits (map (wkey csum) ws)).
    { intros ws F. apply Forall_map. eapply Forall_impl; [|exact F]. intros w (HO & _). unfold wkey, key_fits.
      destruct HO as (_ & _ & Q1 & _ & Q2 & _). repeat split; try assumption. apply CS. }
    unfold diff_command, diff_output, diff_cmd. rewrite GL, GR, (file_items_ok _ _ FL), (file_items_ok _ _ FR). cbn [obind].
    rewrite !keep_ok_map, !diff_keys_ok. cbn [obind].
    set (l := map (wkey csum) wl). set (r := map (wkey csum) wr).
    assert (NN : is_nil l && is_nil r = false) by (unfold l, r; destruct wl, wr; try reflexivity; destruct NE; contradiction). rewrite NN.
    destruct (rows_loop (S (length (key_sort l) + length (key_sort r))) (key_sort l) (key_sort r) 0) as (rows & E1 & E2 & _); try apply ksort_sorted; [lia|].
    rewrite E1. cbn [obind].
    destruct (diff_loop (S (length (key_sort l) + length (key_sort r))) (hd_error (key_sort l)) (tl (key_sort l)) (hd_error (key_sort r)) (tl (key_sort r)) 0) as [n|]; [|discriminate].
    assert (IN : Forall (fun d => key_fits (snd d)) rows).
    { apply Forall_forall. intros d Id. pose proof (KF wl (proj1 FL)) as K1. pose proof (KF wr (proj1 FR)) as K2. fold l in K1. fold r in K2.
      rewrite Forall_forall in K1, K2. destruct (diff_rows_in _ _ _ _ _ _ E1 d Id) as [I|I]; rewrite hd_tl_in in I.
      - apply K1. eapply Permutation_in; [apply Permutation_sym, ksort_perm|exact I].
      - apply K2. eapply Permutation_in; [apply Permutation_sym, ksort_perm|exact I]. }
    injection E2 as E2.
    destruct n; cbn [obind]; eexists; exists rows; eexists; (split; [reflexivity|]); (split; [exact IN|]);
      (split; [destruct rows; split; intro; try reflexivity; discriminate|]); destruct verbose; split; intro; try reflexivity; try discriminate; contradiction. }
  destruct DC as (counts & rows & r & DC & KF & RN & VB).
  inversion H as [E|r0 E|counts0 rows0 r0 ls p pieces st g E DL CP TS EX]; subst;
    rewrite DC in E; try discriminate. injection E as <- <- <-.
  destruct st as [e|]; [discriminate|]. destruct p; [discriminate|]. injection EX as EX.
  assert (GOT : ls <> [] -> got = concat (map newline ls)).
  { intros NL. destruct (newline_ends ls NL) as (t & T). rewrite T. eapply C85_ends_with_newline; [exact TS|]. rewrite CP. exact T. }
  assert (BODY : Forall2 (fun (d : bool * key) line => let '(side, (a, s, c)) := d in row_says line side a s c) rows (map row_line rows)).
  { clear - KF. induction KF as [|[side [[a s] c]] rows K F IH]; [constructor|]. cbn [map]. constructor; [|exact IH].
    apply row_line_says. exact K. }
  assert (CB : Forall clean (map row_line rows)) by (apply Forall_map, Forall_forall; intros d _; apply row_line_clean).
  set (title := [text "Apid counts:"; text "APID  Left      Right     Diff"; text "====  ========  ========  ========"]).
  set (banner := [[]; text "left:  " ++ names left; text "right: " ++ names right; [];
          text "Present in left, but not right         Present in right, but not left";
          text "=====================================  ==================================="]).
  assert (CBn : Forall clean banner).
  { unfold banner. repeat (constructor; [cl|]). constructor. }
  assert (XS : (x = Success <-> map row_line rows = []) /\ (x = Success <-> r = DiffOk)).
  { assert (XR : x = Success <-> r = DiffOk) by (rewrite <- EX; destruct r; split; intros; congruence || discriminate).
    split; [|exact XR]. rewrite XR, RN. destruct rows; split; intro; try reflexivity; discriminate. }
  unfold diff_lines in DL. destruct counts as [c|].
  - destruct (count_lines ovf c) as [cls p] eqn:CL. destruct p; [injection DL as _ DL; discriminate|]. injection DL as DL.
    destruct (count_lines_say _ _ _ CL) as (CSay & CC).
    exists (Some c), rows, r, title, cls, banner, (map row_line rows). split; [exact DC|]. split.
    + rewrite GOT by (rewrite <- DL; discriminate). rewrite <- DL.
      change (lines_of (concat (map newline ((title ++ cls ++ [[]]) ++ banner ++ map row_line rows))) = (title ++ cls ++ [[]]) ++ banner ++ map row_line rows).
      apply lines_newline. apply Forall_app. split; [|apply Forall_app; split; assumption].
      apply Forall_app. split; [repeat constructor; apply clean_b; reflexivity|]. apply Forall_app. split; [exact CC|]. constructor; [intros []|constructor].
    + split; [reflexivity|]. split; [reflexivity|]. split; [exact VB|]. split; [exact CSay|]. split; [exact BODY|exact XS].
  - injection DL as DL. exists None, rows, r, title, [], banner, (map row_line rows). split; [exact DC|]. split.
    + rewrite GOT by (rewrite <- DL; discriminate). rewrite <- DL.
      change (lines_of (concat (map newline (banner ++ map row_line rows))) = banner ++ map row_line rows).
      apply lines_newline. apply Forall_app. split; assumption.
    + split; [reflexivity|]. split; [reflexivity|]. split; [exact VB|]. split; [exact I|]. split; [exact BODY|exact XS].
Qed.
Print Assumptions C87_diff_text.

(* Files without packets, and files that cannot be opened: the command fails and prints nothing, whatever is behind standard
   output; and it does run so. *)
Theorem C87_diff_nothing : forall ovf csum evs fin fs verbose names left right,
  (exists bl br, aget left fs = Some bl /\ aget right fs = Some br /\ file_holds bl [] /\ file_holds br []) \/
  aget left fs = None \/
  (exists bl wl, aget left fs = Some bl /\ file_holds bl wl) /\ aget right fs = None ->
  forall e got, diff_process ovf csum evs fin fs verbose names left right e got <-> e = DiffExits Failure /\ got = [].
Proof.
  intros ovf csum evs fin fs verbose names left right H.
  destruct (C69_diff_nothing csum fs verbose left right) as (A & B).
  assert (R : diff_command csum fs verbose left right = Val (Some (None, DiffNoPackets)) \/ diff_command csum fs verbose left right = Val None).
  { destruct H as [(bl & br & G1 & G2 & F1 & F2)|H]; [left; eapply A; eassumption|right; apply B; exact H]. }
  intros e got. split.
  - intros P. inversion P; subst; try (split; reflexivity). destruct R as [R|R]; congruence.
  - intros (-> & ->). destruct R as [R|R]; [eapply diff_nothing; exact R|apply diff_no_file; exact R].
Qed.
Print Assumptions C87_diff_nothing.

(* A word is at most one number, so nothing can be read in two ways. *)
Theorem C87_unambiguous : forall s n m, shows s n -> shows s m -> n = m.
Proof. intros s n m (w & W & A) (w' & W' & B). rewrite W in W'. injection W' as <-. eapply number_unique; eassumption. Qed.
Print Assumptions C87_unambiguous.

Lemma count_lines_panic : forall ovf counts ls, count_lines ovf counts = (ls, true) ->
  ovf = true /\ exists before a l r after, counts = before ++ (a, (l, r)) :: after /\ (2 ^ 31 <= l \/ 2 ^ 31 <= r) /\
    Forall2 (fun (c : N * (N * N)) line => count_says line (fst c) (fst (snd c)) (snd (snd c))) before ls /\ Forall clean ls.
Proof.
  intros ovf. induction counts as [|[a [l r]] counts IH]; intros ls E; cbn [count_lines] in E; [discriminate|].
  pose proof (count_line_says ovf a l r) as H. destruct (count_line ovf a l r) as [s|].
  - destruct (count_lines ovf counts) as [ls' p]. injection E as <- ->. destruct (IH ls' eq_refl) as (A & before & a' & l' & r' & after & -> & C & D & F).
    split; [exact A|]. exists ((a, (l, r)) :: before), a', l', r', after. destruct H as [H1 H2]. split; [reflexivity|]. split; [exact C|].
    split; constructor; assumption.
  - injection E as <-. destruct H as (A & B). split; [exact A|]. exists [], a, l, r, counts. split; [reflexivity|]. split; [exact B|]. split; constructor.
Qed.
(* When the diff command panics: standard output fails, or 2^31 packets of one apid in a build that checks overflow. Then the counts of
   the apids before that one have been printed, and nothing else. *)
Theorem C87_diff_panics : forall ovf csum evs fin fs verbose names left right got,
  diff_process ovf csum evs fin fs verbose names left right DiffPanics got ->
  (exists k, first_failure evs fin k) \/
  (ovf = true /\ exists rows r before a nl nr after cls,
     diff_command csum fs verbose left right = Val (Some (Some (Some (before ++ (a, (nl, nr)) :: after), rows), r)) /\
     (2 ^ 31 <= nl \/ 2 ^ 31 <= nr) /\
     lines_of got = [text "Apid counts:"; text "APID  Left      Right     Diff"; text "====  ========  ========  ========"] ++ cls /\
     Forall2 (fun (c : N * (N * N)) line => count_says line (fst c) (fst (snd c)) (snd (snd c))) before cls).
Proof.
  intros ovf csum evs fin fs verbose names left right got H.
  inversion H as [E|r0 E|counts rows r ls p pieces st g E DL CP TS EX]; subst.
  destruct st as [k|].
  - left. exists k. destruct (C85_stdout _ _ _ _ _ TS) as (_ & F). exact F.
  - destruct p; [|discriminate]. right. unfold diff_lines in DL. destruct counts as [c|]; [|discriminate].
    destruct (count_lines ovf c) as [cls p] eqn:CL. destruct p; [|discriminate]. injection DL as DL.
    destruct (count_lines_panic _ _ _ CL) as (A & before & a & l & r' & after & -> & B & C & D). split; [exact A|]. exists rows, r, before, a, l, r', after, cls.
    split; [exact E|]. split; [exact B|]. split; [|exact C].
    assert (GOT : got = concat (map newline ls)).
    { destruct (newline_ends ls) as (t & T); [rewrite <- DL; discriminate|]. rewrite T. eapply C85_ends_with_newline; [exact TS|]. rewrite CP. exact T. }
    rewrite GOT, <- DL, app_nil_r. apply (lines_newline ([text "Apid counts:"; text "APID  Left      Right     Diff"; text "====  ========  ========  ========"] ++ cls)).
    apply Forall_app. split; [repeat constructor; apply clean_b; reflexivity|exact D].
Qed.
Print Assumptions C87_diff_panics.

(* ---- concrete cases ---- *)
Example C87_ex_row : text_row 3 (mkFinfo 12 10704 5 1 1 9 0 1) =
  text "   3          12       10704           5           1           1           9           0           1".
Proof. vm_compute. reflexivity. Qed.
(* two numbers of thirteen digits: the columns are lost and another summary has the same line *)
Example C87_ex_wide : text_row 3 (mkFinfo 1111111111111 111111111111 0 0 0 0 0 0) = text_row 3 (mkFinfo 111111111111 1111111111111 0 0 0 0 0 0).
Proof. vm_compute. reflexivity. Qed.
Example C87_ex_counts : count_line true 7 3 12 = Some (text "   7         3        12        -9") /\
  count_line false 7 (2 ^ 31) 1 = Some (text "   7  2147483648         1  2147483647").
Proof. split; vm_compute; reflexivity. Qed.
Example C87_ex_rows : row_line (true, (7, 42, 4000000000)) = text "[apid:   7 seq:    42 crc:4000000000]  [                                   ]" /\
  row_line (false, (2047, 16383, 1)) = text "[                                   ]  [apid:2047 seq: 16383 crc:         1]".
Proof. split; vm_compute; reflexivity. Qed.
Example C87_ex_process : forall ovf, exists got, diff_process ovf sum8 [WAccept 3] Accepts dx_fs true (fun _ => text "f") 1 2 (DiffExits Failure) got /\
  length (lines_of got) = 16%nat /\
  nth_error (lines_of got) 3 = Some (text "   7         1         2        -1").
Proof.
  intros ovf. eexists. split.
  - eapply (diff_printed ovf sum8 [WAccept 3] Accepts dx_fs true (fun _ => text "f") 1 2) with (r := DiffCount 3) (p := false) (st := None).
    + vm_compute. reflexivity.
    + destruct ovf; vm_compute; reflexivity.
    + instantiate (1 := [_]). cbn [concat]. apply app_nil_r.
    + apply C85_reliable. split; [reflexivity|]. constructor; [right; exists 3%nat; split; [lia|reflexivity]|constructor].
  - split; vm_compute; reflexivity.
Qed.
