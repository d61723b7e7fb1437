(* Specification: reading JSON (RFC 8259). Numbers are natural numbers; \u escapes are read up to \u007f, which is all that
   occurs; text is bytes. *)
From Coq Require Import String Ascii NArith List Bool.
Import ListNotations.
Open Scope N_scope.

Inductive json : Type :=
| JNull
| JNum (n : N)
| JStr (s : list N)
| JArr (l : list json)
| JObj (l : list (list N * json)).

Definition text (s : string) : list N := map N_of_ascii (list_ascii_of_string s).

(* ---- tokens ---- *)
Inductive jtoken : Type := TOpen | TClose | TOpenA | TCloseA | TComma | TColon | TNull | TNum (n : N) | TStr (s : list N).
(* what is being read; strings back to front *)
Inductive jmode : Type :=
| Idle
| InNum (n : N)
| InStr (back : list N)
| InEsc (back : list N)
| InHex (back : list N) (left : nat) (v : N)
| InWord (left : list N).

Definition white (c : N) : bool := (c =? 32) || (c =? 9) || (c =? 10) || (c =? 13).
Definition digit (c : N) : bool := (48 <=? c) && (c <=? 57).
(* a character outside of strings, numbers and words: the tokens it makes and what begins *)
Definition begin (c : N) : option (list jtoken * jmode) :=
  if white c then Some ([], Idle)
  else if digit c then Some ([], InNum (c - 48))
  else if c =? 34 then Some ([], InStr [])          (* quotation mark *)
  else if c =? 123 then Some ([TOpen], Idle)
  else if c =? 125 then Some ([TClose], Idle)
  else if c =? 91 then Some ([TOpenA], Idle)
  else if c =? 93 then Some ([TCloseA], Idle)
  else if c =? 44 then Some ([TComma], Idle)
  else if c =? 58 then Some ([TColon], Idle)
  else if c =? 110 then Some ([], InWord [117; 108; 108])     (* null *)
  else None.
Definition unescape (c : N) : option N :=
  if c =? 34 then Some 34 else if c =? 92 then Some 92 else if c =? 47 then Some 47
  else if c =? 98 then Some 8 else if c =? 102 then Some 12 else if c =? 110 then Some 10
  else if c =? 114 then Some 13 else if c =? 116 then Some 9 else None.
Definition hex_value (c : N) : option N :=
  if digit c then Some (c - 48)
  else if (97 <=? c) && (c <=? 102) then Some (c - 87)
  else if (65 <=? c) && (c <=? 70) then Some (c - 55) else None.
(* one character: the tokens that are complete, and what is being read after it *)
Definition jstep (m : jmode) (c : N) : option (list jtoken * jmode) :=
  match m with
  | Idle => begin c
  | InNum n =>
      if digit c then (if n =? 0 then None else Some ([], InNum (10 * n + (c - 48))))      (* no leading zeros *)
      else match begin c with Some (ts, m) => Some (TNum n :: ts, m) | None => None end
  | InStr b =>
      if c =? 34 then Some ([TStr (rev b)], Idle)
      else if c =? 92 then Some ([], InEsc b)
      else if c <? 32 then None else Some ([], InStr (c :: b))
  | InEsc b =>
      if c =? 117 then Some ([], InHex b 4 0)
      else match unescape c with Some x => Some ([], InStr (x :: b)) | None => None end
  | InHex b k v =>
      match hex_value c with
      | None => None
      | Some x =>
          match k with
          | 0%nat => None
          | 1%nat => if 16 * v + x <? 128 then Some ([], InStr (16 * v + x :: b)) else None
          | S k => Some ([], InHex b k (16 * v + x))
          end
      end
  | InWord w =>
      match w with
      | x :: w => if c =? x then (match w with [] => Some ([TNull], Idle) | _ => Some ([], InWord w) end) else None
      | [] => None
      end
  end.
Fixpoint tokens (m : jmode) (cs : list N) : option (list jtoken) :=
  match cs with
  | [] => match m with Idle => Some [] | InNum n => Some [TNum n] | _ => None end
  | c :: cs =>
      match jstep m c with
      | None => None
      | Some (ts, m) => match tokens m cs with None => None | Some ts' => Some (ts ++ ts') end
      end
  end.

(* ---- values: a value and the tokens behind it ---- *)
Fixpoint value (fuel : nat) (ts : list jtoken) : option (json * list jtoken) :=
  match fuel with
  | 0%nat => None
  | S fuel =>
      match ts with
      | TNull :: r => Some (JNull, r)
      | TNum n :: r => Some (JNum n, r)
      | TStr s :: r => Some (JStr s, r)
      | TOpenA :: TCloseA :: r => Some (JArr [], r)
      | TOpenA :: r => match elements fuel r with Some (l, r) => Some (JArr l, r) | None => None end
      | TOpen :: TClose :: r => Some (JObj [], r)
      | TOpen :: r => match members fuel r with Some (l, r) => Some (JObj l, r) | None => None end
      | _ => None
      end
  end
with elements (fuel : nat) (ts : list jtoken) : option (list json * list jtoken) :=
  match fuel with
  | 0%nat => None
  | S fuel =>
      match value fuel ts with
      | Some (v, TComma :: r) => match elements fuel r with Some (l, r) => Some (v :: l, r) | None => None end
      | Some (v, TCloseA :: r) => Some ([v], r)
      | _ => None
      end
  end
with members (fuel : nat) (ts : list jtoken) : option (list (list N * json) * list jtoken) :=
  match fuel with
  | 0%nat => None
  | S fuel =>
      match ts with
      | TStr k :: TColon :: r =>
          match value fuel r with
          | Some (v, TComma :: r) => match members fuel r with Some (l, r) => Some ((k, v) :: l, r) | None => None end
          | Some (v, TClose :: r) => Some ([(k, v)], r)
          | _ => None
          end
      | _ => None
      end
  end.
(* a text is one value with nothing but white space around it; twice as many steps as tokens are enough for any value *)
Definition read_json (cs : list N) : option json :=
  match tokens Idle cs with
  | None => None
  | Some ts => match value (2 * length ts) ts with Some (v, []) => Some v | _ => None end
  end.

(* the value of a member; names are unique in what is written here, the first one counts *)
Fixpoint lookup (k : list N) (l : list (list N * json)) : option json :=
  match l with
  | [] => None
  | (k', v) :: l => if list_eq_dec N.eq_dec k k' then Some v else lookup k l
  end.
Definition member (k : string) (v : json) : option json := match v with JObj l => lookup (text k) l | _ => None end.
