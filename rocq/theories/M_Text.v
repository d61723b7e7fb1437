(* Model of the text reports of the ccsds command: ccsds-cmd/src/frame.rs:160-209 (framing), ccsds-cmd/src/diff.rs:47-80
   (diff). What the handlebars crate makes of the template (values in place of {{ }}, {{~ }} joins with the line before, a line
   that has only a block tag is left out) and std::fmt are external code. *)
From Coq Require Import String List.
From Verif Require Import Base S_Json M_Reader M_Cli M_Main M_Write M_Json M_Stdout.
Open Scope N_scope.

(* frame.rs:187-203, the helper lpad, on a number; also std::fmt's {:w} of a number *)
Definition pad (w : nat) (s : list N) : list N := repeat 32 (w - length s) ++ s.
Definition newline (s : list N) : list N := s ++ [NEWLINE].

(* frame.rs:173-183: one vcid *)
Definition text_row (v : N) (i : finfo) : list N :=
  pad 4 (dec v) ++ pad 12 (dec (fi_total_frames i)) ++ pad 12 (dec (fi_total_bytes i)) ++ pad 12 (dec (fi_missing i)) ++
  pad 12 (dec (fi_corrected i)) ++ pad 12 (dec (fi_uncorrectable i)) ++ pad 12 (dec (fi_ok i)) ++ pad 12 (dec (fi_error i)) ++
  pad 12 (dec (fi_not_performed i)).
(* frame.rs:160-172 *)
Definition text_head (all : finfo) : list (list N) :=
  [repeat 61 102;
   text "Frames:        " ++ dec (fi_total_frames all);
   text "Bytes:         " ++ dec (fi_total_bytes all) ++ [32];
   text "Missing:       " ++ dec (fi_missing all);
   text "Corrected:     " ++ dec (fi_corrected all);
   text "Uncorrectable: " ++ dec (fi_uncorrectable all);
   text "Ok:            " ++ dec (fi_ok all);
   text "Error:         " ++ dec (fi_error all);
   text "NotPerformed:  " ++ dec (fi_not_performed all);
   repeat 45 102;
   text "VCID  Frames      Bytes       Missing     Corrected   Uncorr.     Ok          Error       NotPerf.";
   repeat 45 102].
(* frame.rs:186-209 write_text_summary: the text that is written in one write_all call *)
Definition text_summary (all : finfo) (rows : amap finfo) : list N :=
  concat (map newline (text_head all ++ map (fun r => text_row (fst r) (snd r)) rows)).

(* ---- diff.rs ---- *)
(* usize as i32 *)
Definition as_i32 (n : N) : Z := let m := (Z.of_N n mod 2 ^ 32)%Z in (if m <? 2 ^ 31 then m else m - 2 ^ 32)%Z.
(* i32 subtraction: None = panic on overflow *)
Definition sub_i32 (ovf : bool) (a b : Z) : option Z :=
  (let d := a - b in
   if (- 2 ^ 31 <=? d) && (d <? 2 ^ 31) then Some d else
   if ovf then None else Some (if d <? 0 then d + 2 ^ 32 else d - 2 ^ 32))%Z.
Definition decZ (z : Z) : list N := if (z <? 0)%Z then 45 :: dec (Z.to_N (- z)) else dec (Z.to_N z).
(* diff.rs:55-58 *)
Definition count_line (ovf : bool) (apid l r : N) : option (list N) :=
  match sub_i32 ovf (as_i32 l) (as_i32 r) with
  | None => None
  | Some d => Some (pad 4 (dec apid) ++ text "  " ++ pad 8 (dec l) ++ text "  " ++ pad 8 (dec r) ++ text "  " ++ pad 8 (decZ d))
  end.
(* diff.rs:51-60: the lines, up to a panic *)
Fixpoint count_lines (ovf : bool) (counts : amap (N * N)) : list (list N) * bool :=
  match counts with
  | [] => ([], false)
  | (a, (l, r)) :: counts =>
      match count_line ovf a l r with
      | None => ([], true)
      | Some s => let '(ls, p) := count_lines ovf counts in (s :: ls, p)
      end
  end.
(* diff.rs:69-80 print_left and print_right *)
Definition key_text (k : key) : list N :=
  let '(a, s, c) := k in text "[apid:" ++ pad 4 (dec a) ++ text " seq:" ++ pad 6 (dec s) ++ text " crc:" ++ pad 10 (dec c) ++ text "]".
Definition no_key : list N := text "[                                   ]".
Definition row_line (r : bool * key) : list N :=
  if fst r then key_text (snd r) ++ text "  " ++ no_key else no_key ++ text "  " ++ key_text (snd r).
(* diff.rs:47-122: the lines printed, and whether it panics behind them *)
Definition diff_lines (ovf : bool) (left_path right_path : list N) (counts : option (amap (N * N))) (rows : list (bool * key))
  : list (list N) * bool :=
  let '(cs, p) := match counts with
                  | None => ([], false)
                  | Some counts =>
                      let '(ls, p) := count_lines ovf counts in
                      ([text "Apid counts:"; text "APID  Left      Right     Diff"; text "====  ========  ========  ========"]
                       ++ ls ++ (if p then [] else [[]]), p)
                  end in
  if p then (cs, true) else
  (cs ++ [[]; text "left:  " ++ left_path; text "right: " ++ right_path; [];
          text "Present in left, but not right         Present in right, but not left";
          text "=====================================  ==================================="] ++ map row_line rows, false).

(* diff.rs:9-128 as a process. println! panics when a write fails; [pieces] are its write_all calls, any division of the
   lines. Exited Failure: the message on standard error is not represented. *)
Inductive diff_end : Type := DiffPanics | DiffExits (x : exit).
Inductive diff_process (ovf : bool) (csum : list N -> N) (evs : list wevent) (fin : wfinal) (fs : fsys) (verbose : bool)
    (names : N -> list N) (left right : N) : diff_end -> list N -> Prop :=
| diff_no_file :
    diff_command csum fs verbose left right = Val None ->
    diff_process ovf csum evs fin fs verbose names left right (DiffExits Failure) []
| diff_nothing : forall r,
    diff_command csum fs verbose left right = Val (Some (None, r)) ->
    diff_process ovf csum evs fin fs verbose names left right (DiffExits Failure) []
| diff_printed : forall counts rows r ls p pieces st got,
    diff_command csum fs verbose left right = Val (Some (Some (counts, rows), r)) ->
    diff_lines ovf (names left) (names right) counts rows = (ls, p) ->
    concat pieces = concat (map newline ls) ->
    to_stdout pieces evs fin = (st, got) ->
    diff_process ovf csum evs fin fs verbose names left right
      (match st with
       | Some _ => DiffPanics
       | None => if p then DiffPanics else DiffExits (match r with DiffOk => Success | _ => Failure end)
       end) got.
