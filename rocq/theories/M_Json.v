(* Model of the JSON reports of the ccsds command: ccsds-cmd/src/frame.rs:16-43, 156-158, ccsds-cmd/src/info.rs:58-72,
   156-170. Includes the part of the serde_json crate that they use (to_string_pretty, to_writer_pretty: PrettyFormatter with
   two spaces, the escapes of strings) as external code; what hifitime's Serialize makes of
   times and durations is a parameter. *)
From Coq Require Import String List.
From Verif Require Import Base S_Json M_Reader M_Cli.
Open Scope N_scope.

(* Display of an unsigned integer. The argument [fuel] bounds the number of digits. *)
Fixpoint dec_loop (fuel : nat) (n : N) (acc : list N) : list N :=
  match fuel with
  | O => acc
  | S fuel =>
      let acc := (48 + n mod 10) :: acc in
      if n / 10 =? 0 then acc else dec_loop fuel (n / 10) acc
  end.
Definition dec (n : N) : list N := dec_loop (S (N.to_nat (N.log2 n))) n [].

(* serde_json's escapes *)
Definition hex_digit (n : N) : N := if n <? 10 then 48 + n else 87 + n.
Definition escape_byte (c : N) : list N :=
  if c =? 34 then [92; 34] else if c =? 92 then [92; 92]
  else if c =? 8 then [92; 98] else if c =? 9 then [92; 116] else if c =? 10 then [92; 110]
  else if c =? 12 then [92; 102] else if c =? 13 then [92; 114]
  else if c <? 32 then [92; 117; 48; 48; hex_digit (c / 16); hex_digit (c mod 16)]
  else [c].
Definition quoted (s : list N) : list N := [34] ++ flat_map escape_byte s ++ [34].

Definition indentation (ind : nat) : list N := repeat 32 (2 * ind).
(* serde_json's PrettyFormatter *)
Fixpoint pretty (ind : nat) (v : json) : list N :=
  match v with
  | JNull => text "null"
  | JNum n => dec n
  | JStr s => quoted s
  | JArr [] => text "[]"
  | JArr l =>
      [91] ++
      (fix items (first : bool) (l : list json) : list N :=
         match l with
         | [] => []
         | v :: l => (if first then [10] else [44; 10]) ++ indentation (S ind) ++ pretty (S ind) v ++ items false l
         end) true l ++ [10] ++ indentation ind ++ [93]
  | JObj [] => text "{}"
  | JObj l =>
      [123] ++
      (fix items (first : bool) (l : list (list N * json)) : list N :=
         match l with
         | [] => []
         | (k, v) :: l => (if first then [10] else [44; 10]) ++ indentation (S ind) ++ quoted k ++ [58; 32] ++ pretty (S ind) v ++ items false l
         end) true l ++ [10] ++ indentation ind ++ [125]
  end.

(* frame.rs:16-43, derived Serialize: the fields in order *)
Definition finfo_fields (i : finfo) : list (list N * json) :=
  [(text "total_frames", JNum (fi_total_frames i)); (text "total_bytes", JNum (fi_total_bytes i));
   (text "missing_frames", JNum (fi_missing i)); (text "corrected", JNum (fi_corrected i));
   (text "uncorrectable", JNum (fi_uncorrectable i)); (text "ok", JNum (fi_ok i)); (text "error", JNum (fi_error i));
   (text "not_performed", JNum (fi_not_performed i))].
Definition summary_json (all : finfo) (rows : amap finfo) : json :=
  JObj (finfo_fields all ++
        [(text "vcids", JArr (map (fun r => JObj ((text "vcid", JNum (fst r)) :: finfo_fields (snd r))) rows))]).
(* frame.rs:156-158 render_json_summary *)
Definition render_json_summary (all : finfo) (rows : amap finfo) : list N := pretty 0 (summary_json all rows).

(* info.rs:58-72, derived Serialize; a tuple is an array *)
Section Info.
Context (json_epoch json_duration : Z -> json).
Definition time_json (t : option Z) : json := match t with None => JNull | Some t => json_epoch t end.
Definition isummary_json (s : isummary) : json :=
  JObj [(text "total_packets", JNum (i_total s)); (text "missing_packets", JNum (i_missing s));
        (text "first_packet_time", time_json (i_first s)); (text "last_packet_time", time_json (i_last s));
        (text "duration", json_duration (i_duration s))].
(* info.rs:156-170 with --format json: what is written to standard output *)
Definition render_info_json (filename : list N) (all : isummary) (apids : amap isummary) : list N :=
  pretty 0 (JObj [(text "filename", JStr filename); (text "summary", isummary_json all);
                  (text "apids", JArr (map (fun r => JArr [JNum (fst r); isummary_json (snd r)]) apids))]).
End Info.
