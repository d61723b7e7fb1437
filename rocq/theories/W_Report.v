(* Theorems of C84 - C89 applied to concrete, non-trivial cases: every hypothesis is met. *)
From Coq Require Import String List Sorted.
From Verif Require Import Base S_Bits S_InfoTotals M_Bytes M_Reader M_Packet M_Group M_Sync M_Pn M_Frame M_ReedSolomon M_RsPipeline M_Pipeline M_Timecode S_Timecode M_Merge M_Cli M_Main M_Write M_Json M_Stdout M_Text M_Info M_MergeTd
  S_Json S_Packet S_Group S_Merge S_Cli S_Main S_Write S_AnyFile S_Stdout S_Report S_Text S_Info S_MergeTd
  L_Base L_Packet L_Merge L_Json L_Write L_Stdout L_Text L_Info P_Main P_Main2 P_CliInfo P_CliDiff P_CliDiff2 P_CliFilter P_AnyFile P_Json P_Stdout P_Text P_Info P_Merge P_Pipeline P_MergeTd W_Cli W_Stream.
Open Scope N_scope.

(* ---- C84 ---- *)
Example C84_read_back_at := C84_read_back (JObj [(text "a", JArr [JStr [9; 34; 92; 1]; JNum 1024; JNull]); (text "b", JObj [])]).
Example C84_framing_summary_at := C84_framing_summary 2 false [] [9] true js_frames _ _ _ _ C84_ex_kept C84_ex_run.
Definition items84 : list (result packet) := [Ok (in_pkt 9 16383 22000 true); Err (Io Interrupted); Ok (in_pkt 7 1 21999 true)].
Example C84_info_json_at : exists all rows v, summarize true None items84 = Val (all, rows) /\
  read_json (render_info_json (fun z => JNum (Z.to_N z)) (fun _ => JNull) (text "f") all rows) = Some v /\
  info_report (tf None) (fun z => JNum (Z.to_N z)) (fun _ => JNull) (text "f") (keep_ok items84) v.
Proof.
  assert (X : exists all rows, summarize true None items84 = Val (all, rows)) by (do 2 eexists; vm_compute; reflexivity).
  destruct X as (all & rows & E). destruct (C84_info_json true None (fun z => JNum (Z.to_N z)) (fun _ => JNull) (text "f") items84 all rows C84_ex_info E) as (v & R & I).
  exists all, rows, v. auto.
Qed.

(* ---- C85 ---- *)
Definition pieces85 : list (list N) := [[65]; [66; 10; 67]; [68]].
Example C85_stdout_at := C85_stdout pieces85 _ _ _ _ (proj1 (proj2 (proj2 C85_ex))).
Example C85_stdout_at2 := C85_stdout pieces85 _ _ _ _ (proj1 (proj2 C85_ex)).
Example C85_ends_with_newline_at := C85_ends_with_newline [[65]; [66; 10; 67]; [10]] [WAccept 1] Accepts [65; 66; 10; 67; 10] [65; 66; 10; 67] ltac:(vm_compute; reflexivity) eq_refl.
Lemma reliable85 : reliable [WFail Interrupted; WAccept 3] Accepts.
Proof. split; [reflexivity|]. constructor; [left; reflexivity|]. constructor; [right; exists 3%nat; split; [lia|reflexivity]|constructor]. Qed.
Example C85_reliable_at := C85_reliable pieces85 _ _ reliable85.
Example C85_last_line_lost_at := C85_last_line_lost pieces85 _ _ 28 C85_ex_lines ltac:(vm_compute; lia).
Example C85_info_json_cut_refuted_at := C85_info_json_cut_refuted (fun _ => JNull) (fun _ => JNull) (text "f") (mkIsummary 4 3 (Some 5%Z) None 0%Z) [(7, mkIsummary 4 3 (Some 5%Z) None 0%Z)] [_] 28 (app_nil_r _).

(* ---- C86 ---- *)
Definition report86 (all : finfo) (rows : amap finfo) : list N := text_summary all rows.
Lemma ran86 : forall nt, exists fs' got, framing_report true ok_codec nt (fun _ => true) report86 [WFail Interrupted; WAccept 3] Accepts [WFail Interrupted; WAccept 3] Accepts fx_fs (fx_args None None) (Some 3) Success fs' got.
Proof.
  intro nt. destruct (C59_ex ok_codec nt) as (all & rows & FC & _).
  assert (W : exists w, write_all (render_json_summary all rows) (mkWriter [WFail Interrupted; WAccept 3] Accepts []) = (None, w)).
  { destruct (write_all _ _) as [st w] eqn:E. apply write_all_spec in E. destruct st as [e|]; [|exists w; reflexivity].
    exfalso. destruct E as (_ & _ & E). exact (reliable_no_failure _ _ reliable85 _ E). }
  destruct W as [w W].
  do 2 eexists. eapply report_written; [exact FC|reflexivity|reflexivity|exact W|]. unfold report_to_stdout. rewrite C85_reliable by exact reliable85. reflexivity.
Qed.

Example C86_summary_file_at : exists fs' got json v, framing_report true ok_codec 2 (fun _ => true) report86 [WFail Interrupted; WAccept 3] Accepts [WFail Interrupted; WAccept 3] Accepts fx_fs (fx_args None None) (Some 3) Success fs' got /\
  aget 3 fs' = Some json /\ read_json json = Some v.
Proof.
  destruct (ran86 2%nat) as (fs' & got & R). destruct C86_ex_ranges as [I E].
  destruct (C86_summary_file _ _ _ _ _ _ _ _ _ _ _ 3 _ _ _ _ I E R) as (len & p & i & e & bs & frames & sel & fs1 & sm & json & v & _ & _ & _ & _ & _ & (A & _) & J & _).
  exists fs', got, json, v. auto.
Qed.
(* the premise is C86_ex *)
Example C86_outcomes_at := fun all rows => C86_outcomes true ok_codec 2 (fun _ => true) report86 [WAccept 1] (Refuses 28) [] Accepts fx_fs (fx_args None None) 3 Failure
  [(1, ASM ++ fx_frame 3 ++ ASM ++ fx_frame 63); (2, fx_frame 3); (3, firstn 1 (render_json_summary all rows))] [].
Example C86_outcomes_premise := C86_ex ok_codec 2 report86.
Example C86_same_file_refuted_at := C86_same_file_refuted ok_codec 2 report86 2 (or_intror eq_refl).

(* ---- C87 ---- *)
Example C87_framing_text_at := C87_framing_text (mkFinfo 13 10712 5 1 1 9 0 2) [(3, mkFinfo 12 10704 5 1 1 9 0 1); (63, mkFinfo 1 8 0 0 0 0 0 1)].
Lemma ran87 : exists fs' got, framing_report true ok_codec 2 (fun _ => true) text_summary [WFail Interrupted; WAccept 3] Accepts [WFail Interrupted; WAccept 3] Accepts fx_fs (fx_args None None) (Some 3) Success fs' got.
Proof. exact (ran86 2%nat). Qed.
Example C87_framing_stdout_at : exists fs' got fs1 sm, framing_command true ok_codec 2 (fun _ => true) fx_fs (fx_args None None) Success fs1 (Some sm) /\ got = text_summary (fst sm) (snd sm) /\
  framing_report true ok_codec 2 (fun _ => true) text_summary [WFail Interrupted; WAccept 3] Accepts [WFail Interrupted; WAccept 3] Accepts fx_fs (fx_args None None) (Some 3) Success fs' got.
Proof. destruct ran87 as (fs' & got & R). destruct (C87_framing_stdout _ _ _ _ _ _ _ _ _ _ _ _ _ R) as (fs1 & sm & A & B). exists fs', got, fs1, sm. auto. Qed.
Example C87_framing_report_at : exists got head body, lines_of got = head ++ body /\ length head = 12%nat.
Proof.
  destruct ran87 as (fs' & got & R). destruct C86_ex_ranges as [I E].
  destruct (C87_framing_report _ _ _ _ _ _ _ _ _ _ _ _ _ _ _ I E R) as (len & p & i & e & bs & frames & sel & head & body & vcids & _ & _ & _ & _ & L & H & _).
  exists got, head, body. auto.
Qed.
Example C87_counts_exact_at := C87_counts_exact true 7 3 12 eq_refl eq_refl.
Example C87_difference_refuted_at := C87_difference_refuted 7.
Lemma sum8_bound : forall b, sum8 b < 2 ^ 32.
Proof.
  intro b. unfold sum8. apply N.lt_trans with 256; [|reflexivity]. assert (G : forall l a, a < 256 -> fold_left (fun a b => (a + b) mod 256) l a < 256).
  { induction l as [|x l IH]; intros a H; cbn [fold_left]; [exact H|]. apply IH, N.mod_lt. discriminate. }
  apply G. reflexivity.
Qed.
Lemma no10 : ~ In 10 (text "f").
Proof. intros [C|[]]. discriminate C. Qed.
Example C87_diff_text_at : exists counts rows r got, diff_command sum8 dx_fs true 1 2 = Val (Some (Some (counts, rows), r)) /\ length (lines_of got) = 16%nat /\ counts <> None.
Proof.
  destruct (C87_ex_process true) as (got & P & L & _).
  destruct (C87_diff_text true sum8 _ _ dx_fs true (fun _ => text "f") 1 2 _ _ dl dr _ got eq_refl eq_refl dl_holds dr_holds ltac:(left; discriminate) sum8_bound no10 no10 P)
    as (counts & rows & r & title & cls & banner & body & D & _ & _ & _ & V & _).
  exists counts, rows, r, got. split; [exact D|]. split; [exact L|]. apply V. reflexivity.
Qed.
Example C87_diff_nothing_at := C87_diff_nothing true sum8 [WAccept 3] Accepts none_fs true (fun _ => text "f") 1 2
  (or_introl (ex_intro _ _ (ex_intro _ _ (conj eq_refl (conj eq_refl (conj none_holds nil_holds)))))).
Example C87_unambiguous_at := C87_unambiguous (pad 12 (dec 42)) 42 42 (shows_pad 12 42).
(* a closed pipe behind standard output *)
Example C87_diff_panics_at : exists k, first_failure [WFail (OtherIo 32)] (Refuses 32) k.
Proof.
  assert (X : exists got, diff_process false sum8 [WFail (OtherIo 32)] (Refuses 32) dx_fs true (fun _ => text "f") 1 2 DiffPanics got).
  { eexists. refine (diff_printed false sum8 [WFail (OtherIo 32)] (Refuses 32) dx_fs true (fun _ => text "f") 1 2 _ _ (DiffCount 3) _ false [_] (Some (OtherIo 32)) _ _ _ _ _).
    - vm_compute. reflexivity.
    - vm_compute. reflexivity.
    - cbn [concat]. apply app_nil_r.
    - vm_compute. reflexivity. }
  destruct X as (got & P). destruct (C87_diff_panics _ _ _ _ _ _ _ _ _ _ P) as [F|(C & _)]; [exact F|discriminate C].
Qed.

(* ---- C88 ---- *)
Example C88_text_at : exists got, length (lines_of got) = 13%nat /\ exists apids listed apidl, Forall2 shows (between_commas listed) apids /\ In apidl (lines_of got) /\ labelled "APIDS:    " listed apidl /\
  StronglySorted N.lt apids /\ (forall a, In a apids <-> exists w, In w dr /\ apid (w_header w) = a).
Proof.
  destruct C88_ex_text as (got & P & L & _). destruct C88_ex_plain as (P1 & P2 & P3).
  destruct (C88_text true _ _ ix_epoch ix_span _ _ dx_fs (fun _ => text "f.dat") 2 true _ dr got eq_refl dr_holds P1 P2 P3 P)
    as (name & r1 & first & last & span & apidl & count & missing & r2 & r3 & r4 & apids & listed & body & LN & _ & _ & _ & _ & _ & _ & _ & _ & A1 & A2 & _ & _ & S1 & S2 & _).
  exists got. split; [exact L|]. exists apids, listed, apidl. rewrite LN. split; [exact A2|]. split; [do 5 right; left; reflexivity|]. auto.
Qed.
Example C88_json_at : exists got t v, beginning got t /\ read_json t = Some v /\ got = t.
Proof.
  assert (X : exists got, info_process true (fun _ => JNull) (fun _ => JNull) ix_epoch ix_span [WFail Interrupted; WAccept 3] Accepts dx_fs (fun _ => text "f.dat") 2 AsJson true (InfoExits Success) got).
  { eexists. eapply info_json with (pieces := [_]); [vm_compute; reflexivity|reflexivity|cbn [concat]; apply app_nil_r|].
    unfold report_to_stdout. rewrite C85_reliable by exact reliable85. reflexivity. }
  destruct X as (got & P). destruct (C88_json true _ _ _ _ _ _ dx_fs _ 2 _ _ dr _ eq_refl dr_holds P) as (t & v & R & _ & B & [E|(k & F)]).
  - exists got, t, v. auto.
  - exfalso. exact (reliable_no_failure _ _ reliable85 k F).
Qed.
Example C88_name_at := C88_name ix_epoch ix_span (text "a=b.dat") (mkIsummary 4 3 (Some 5%Z) None 0%Z) [] ltac:(vm_compute; intuition discriminate).
Example C88_names_differ_at := C88_names_differ ix_epoch ix_span (text "a=b.dat") (text "a=b.dat") (mkIsummary 4 3 (Some 5%Z) None 0%Z) [] ltac:(vm_compute; intuition discriminate) ltac:(vm_compute; intuition discriminate) eq_refl.
Example C88_name_refuted_at := C88_name_refuted ix_epoch ix_span (mkIsummary 4 3 (Some 5%Z) None 0%Z) [].

(* ---- C89 ---- *)
Open Scope nat_scope.
Definition w89 : wire_packet := mg_wire 826 3 4 22000 [2]%N.
Definition p89 : packet := mkPacket (w_header w89) (wire_bytes w89) 0.
Lemma hok89 : hash_ok in_order. Proof. split; intro; apply Permutation.Permutation_refl. Qed.
Example C89_times_at := C89_times true (Cds 2 2) td_regs p89 (Cds 2 2) (proj1 C89_ex) ltac:(vm_compute; lia) ltac:(vm_compute; repeat constructor) (proj2 (proj2 (proj2 (proj2 C89_ex)))).
Example C89_merge_at := C89_merge true (Cds 2 2) td_regs in_order mg_fs td_m mg_ws (proj1 C89_ex) hok89 (proj1 (proj2 C89_ex))
  (fun p f L B F => C89_times true (Cds 2 2) td_regs p f (proj1 C89_ex) L B F).
Definition fs89 : N -> option (list N) := fun _ => Some (wire_bytes (mkWire (mkHeader 0 0 true 821 3 7 9) [85; 240; 0; 0; 0; 0; 0; 0; 16; 199]%N)).
Example C89_panics_at := proj1 (C89_panics true (Cds 2 2) [(Cds 2 4, [821%N])] in_order fs89 td_m
  ltac:(first [split; [eexists; eexists; reflexivity|repeat constructor; eexists; eexists; reflexivity]|repeat constructor; eexists; eexists; reflexivity]) hok89
  ltac:(intros p bs E; injection E as <-; vm_compute; repeat constructor)) (proj2 (proj2 C89_ex_panic)).
