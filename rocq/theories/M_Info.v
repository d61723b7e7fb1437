(* Model of the info command as a process: ccsds-cmd/src/info.rs:157-211. What the handlebars crate makes of the template
   (values in place of {{ }}, escaped for HTML; null is the empty text; a line that has only a block tag is left out) is
   external code. hifitime's Serialize of times and durations is a parameter: [epoch_text] and [span_text] here, texts. *)
From Coq Require Import String List.
From Verif Require Import Base S_Json M_Reader M_Cli M_Main M_Write M_Json M_Stdout M_Text.
Open Scope N_scope.

(* handlebars::html_escape, applied to every value that is put in place of {{ }} *)
Definition html_char (c : N) : list N :=
  if c =? 60 then text "&lt;" else if c =? 62 then text "&gt;" else if c =? 34 then text "&quot;"
  else if c =? 38 then text "&amp;" else if c =? 39 then text "&#x27;" else if c =? 96 then text "&#x60;"
  else if c =? 61 then text "&#x3D;" else [c].
Definition html (s : list N) : list N := flat_map html_char s.

Section Template.
Context (epoch_text span_text : Z -> list N).
Definition time_text (t : option Z) : list N := match t with None => [] | Some t => epoch_text t end.
(* info.rs:204: each apid, and ", " behind all but the last *)
Fixpoint apid_list (apids : list N) : list N :=
  match apids with
  | [] => []
  | [a] => dec a
  | a :: apids => dec a ++ text ", " ++ apid_list apids
  end.
(* info.rs:210: one apid; lpad is info.rs:174-190 *)
Definition info_row (a : N) (s : isummary) : list N :=
  pad 6 (dec a) ++ text "  " ++ html (pad 33 (time_text (i_first s))) ++ text "  " ++ html (pad 33 (time_text (i_last s)))
  ++ text "   " ++ pad 6 (dec (i_total s)) ++ text "   " ++ pad 7 (dec (i_missing s)).
(* info.rs:199-209 *)
Definition info_head (filename : list N) (all : isummary) (apids : list N) : list (list N) :=
  [html filename;
   repeat 61 95;
   text "First:    " ++ html (time_text (i_first all));
   text "Last:     " ++ html (time_text (i_last all)) ++ text " ";
   text "Duration: " ++ html (span_text (i_duration all));
   text "APIDS:    " ++ apid_list apids;
   text "Count:    " ++ dec (i_total all);
   text "Missing:  " ++ dec (i_missing all);
   repeat 45 95;
   text "APID    First                              Last                                 Count   Missing";
   repeat 45 95].
(* info.rs:173-197 render_text *)
Definition info_text (filename : list N) (all : isummary) (rows : amap isummary) : list N :=
  concat (map newline (info_head filename all (map fst rows) ++ map (fun r => info_row (fst r) (snd r)) rows)).
End Template.

(* info.rs:157-170: exit status (or panic) and what arrives on standard output. The text is written in one write_all call,
   the JSON in any pieces. *)
Inductive info_format : Type := AsJson | AsText.
Inductive info_end : Type := InfoPanics | InfoExits (x : exit).
Inductive info_process (ovf : bool) (json_epoch json_span : Z -> json) (epoch_text span_text : Z -> list N)
    (evs : list wevent) (fin : wfinal) (fs : fsys) (names : N -> list N) (input : N) (format : info_format) (cds : bool)
  : info_end -> list N -> Prop :=
| info_panic :
    info_command ovf fs input cds = Panic ->
    info_process ovf json_epoch json_span epoch_text span_text evs fin fs names input format cds InfoPanics []
| info_no_file :
    info_command ovf fs input cds = Val None ->
    info_process ovf json_epoch json_span epoch_text span_text evs fin fs names input format cds (InfoExits Failure) []
| info_json : forall all rows pieces x got,
    info_command ovf fs input cds = Val (Some (all, rows)) -> format = AsJson ->
    concat pieces = render_info_json json_epoch json_span (names input) all rows ->
    report_to_stdout pieces evs fin = (x, got) ->
    info_process ovf json_epoch json_span epoch_text span_text evs fin fs names input format cds (InfoExits x) got
| info_as_text : forall all rows x got,
    info_command ovf fs input cds = Val (Some (all, rows)) -> format = AsText ->
    report_to_stdout [info_text epoch_text span_text (names input) all rows] evs fin = (x, got) ->
    info_process ovf json_epoch json_span epoch_text span_text evs fin fs names input format cds (InfoExits x) got.
