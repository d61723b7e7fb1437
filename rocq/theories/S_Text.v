(* Specification: reading the text reports. Spec vocabulary: [digits], [decimal] (S_Cli.v), [text] (S_Json.v). *)
From Coq Require Import String List.
From Verif Require Import Base S_Cli S_Json.
Open Scope N_scope.

(* the lines of a text (newline: 10), each without its newline; [cur] is the line so far, back to front *)
Fixpoint lines_from (cur : list N) (t : list N) : list (list N) :=
  match t with
  | [] => match cur with [] => [] | _ => [rev cur] end
  | c :: t => if c =? 10 then rev cur :: lines_from [] t else lines_from (c :: cur) t
  end.
Definition lines_of (t : list N) : list (list N) := lines_from [] t.
(* the words of a line, separated by blanks (32) *)
Fixpoint words_from (cur : list N) (t : list N) : list (list N) :=
  match t with
  | [] => match cur with [] => [] | _ => [rev cur] end
  | c :: t => if c =? 32 then (match cur with [] => words_from [] t | _ => rev cur :: words_from [] t end)
              else words_from (c :: cur) t
  end.
Definition words_of (t : list N) : list (list N) := words_from [] t.

(* a word is a number *)
Definition is_number (w : list N) (n : N) : Prop := digits w /\ decimal w = n.
Definition is_integer (w : list N) (z : Z) : Prop :=
  (exists n, is_number w n /\ z = Z.of_N n) \/ (exists w' n, w = 45 :: w' /\ is_number w' n /\ n <> 0 /\ z = (- Z.of_N n)%Z).
(* a field has one number and blanks *)
Definition shows (s : list N) (n : N) : Prop := exists w, words_of s = [w] /\ is_number w n.
(* a line cut into columns of the given widths *)
Fixpoint cells (widths : list nat) (line : list N) : list (list N) :=
  match widths with
  | [] => []
  | w :: widths => firstn w line :: cells widths (skipn w line)
  end.

(* one half of a row of the diff report *)
Definition entry_shows (e : list N) (a s c : N) : Prop :=
  length e = 37%nat /\ exists fa fs fc,
    cells [6; 4; 5; 6; 5; 10; 1]%nat e = [text "[apid:"; fa; text " seq:"; fs; text " crc:"; fc; text "]"] /\
    shows fa a /\ shows fs s /\ shows fc c.
Definition entry_empty (e : list N) : Prop := e = text "[                                   ]".
(* a row of the diff report: on the left or on the right *)
Definition row_says (line : list N) (on_left : bool) (a s c : N) : Prop :=
  length line = 76%nat /\ exists x y, cells [37; 2; 37]%nat line = [x; text "  "; y] /\
  (if on_left then entry_shows x a s c /\ entry_empty y else entry_empty x /\ entry_shows y a s c).
(* a row of the counts of the diff report: four words; the last is the difference modulo 2^32 *)
Definition count_says (line : list N) (a l r : N) : Prop :=
  exists wa wl wr wd d, words_of line = [wa; wl; wr; wd] /\ is_number wa a /\ is_number wl l /\ is_number wr r /\ is_integer wd d /\
    (- 2 ^ 31 <= d < 2 ^ 31)%Z /\ ((Z.of_N l - Z.of_N r - d) mod 2 ^ 32 = 0)%Z.

(* the rulers and the heading of the framing report, which are the first, tenth, eleventh and twelfth of its lines; a heading is
   above its column: one of 6 and then of 12 characters *)
Definition framing_heading (head : list (list N)) : Prop :=
  nth 0 head [] = repeat 61 102 /\ nth 9 head [] = repeat 45 102 /\ nth 11 head [] = repeat 45 102 /\
  map words_of (cells (6 :: repeat 12 8)%nat (nth 10 head [])) =
    map (fun w => [text w]) ["VCID"; "Frames"; "Bytes"; "Missing"; "Corrected"; "Uncorr."; "Ok"; "Error"; "NotPerf."]%string.
